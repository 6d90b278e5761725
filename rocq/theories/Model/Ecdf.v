(** Model of the fit of cyclic_boosting/binning/ecdf_transformer.py *)
From Coq Require Import ZArith NArith QArith Qround List Bool.
From Verif.Model Require Import Num BinarySearch Flags.
Import ListNotations.
Local Open Scope Q_scope.

(** [np.unique] on non-NaN values: sorted, duplicates removed. Insertion into
    a sorted duplicate-free list; numpy's result is the same list. *)
Fixpoint insert_unique (x : fnum) (l : list fnum) : list fnum :=
  match l with
  | [] => [x]
  | y :: r => if feq x y then l
              else if fle x y then x :: l
              else y :: insert_unique x r
  end.
Definition np_unique (l : list fnum) : list fnum := fold_right insert_unique [] l.

Definition Qsum (l : list Q) : Q := fold_right Qplus 0 l.

(** Total weight of the samples equal to [k]: one group of
    [groupby("z").agg({"w": "sum"})] (ecdf_transformer.py:566). *)
Definition group_weight (zw : list (fnum * Q)) (k : fnum) : Q :=
  Qsum (map snd (filter (fun p => feq (fst p) k) zw)).

(** [np.cumsum] *)
Fixpoint cumsum_from (acc : Q) (l : list Q) : list Q :=
  match l with
  | [] => []
  | w :: r => (acc + w) :: cumsum_from (acc + w) r
  end.
Definition cumsum (l : list Q) : list Q := cumsum_from 0 l.

(** [calculate_cdf_from_weighted_data] (ecdf_transformer.py:521-571), the
    components [z_unique] and [cdf] of the returned tuple. Groups with NaN key
    are dropped by pandas, groups with total weight 0 by line 567 -- from the
    cdf only: [z_unique] keeps them. Weights are finite numbers here (NaN
    weights, which nansum/nancumsum skip, are not modelled). *)
Definition z_unique (zw : list (fnum * Q)) : list fnum :=
  np_unique (filter (fun v => negb (isnan v)) (map fst zw)).
Definition cdf_wsum (zw : list (fnum * Q)) : Q :=
  Qsum (map snd (filter (fun p => negb (isnan (fst p))) zw)).
Definition group_weights (zw : list (fnum * Q)) : list Q :=
  filter (fun w => negb (Qeq_bool w 0)) (map (group_weight zw) (z_unique zw)).
Definition cdf_values (zw : list (fnum * Q)) : list Q :=
  map (fun c => c / cdf_wsum zw) (cumsum (group_weights zw)).

Inductive cdf_result : Type :=
| CdfOk (zu : list fnum) (cdf : list Q) (wsum : Q) (n_nan : nat)
| RaiseShape. (* ValueError, ecdf_transformer.py:557-558 *)

Definition calculate_cdf (z : list fnum) (w : list Q) : cdf_result :=
  if negb (Nat.eqb (length z) (length w)) then RaiseShape
  else let zw := combine z w in
       CdfOk (z_unique zw) (cdf_values zw) (cdf_wsum zw) (length (filter isnan z)).

(** Python [a % b] for floats, [b > 0]: the remainder with the sign of [b]. *)
Definition Qmod (a b : Q) : Q := a - b * inject_Z (Qfloor (a / b)).

Inductive reduce_result : Type :=
| ReduceOk (boundaries : list fnum) (cdf : list Q)
| RaiseNBins      (* ValueError, ecdf_transformer.py:453-454 *)
| ReduceIndexError.

(** The for-loop of [reduce_cdf_and_boundaries_to_nbins]
    (ecdf_transformer.py:468-486). [todo] counts the remaining values of [i];
    [accb]/[accc] are the entries 0..i-1 written so far, so the [else] branch
    overwrites their last entry and returns them. *)
Fixpoint reduce_loop (todo : nat) (bins_x : list fnum) (cdf_x : list Q)
    (share eps tol : Q) (index : Z) (prev : Q) (accb : list fnum) (accc : list Q)
  : reduce_result :=
  match todo with
  | O => ReduceOk accb accc
  | S todo' =>
      let rest := Qmod prev share in
      let searched0 := prev + share in
      let searched := if Qle_bool rest (tol * share) then searched0 - rest else searched0 in
      let n := Z.of_nat (length cdf_x) in
      if Qle_bool searched (1 + tol * share) then
        match ge_lim (map Fin cdf_x) (Fin (searched - eps)) true index n with
        | Found index' =>
            match pyget cdf_x index', pyget bins_x index' with
            | Some c, Some b =>
                reduce_loop todo' bins_x cdf_x share eps tol index' c (accb ++ [b]) (accc ++ [c])
            | _, _ => ReduceIndexError
            end
        | _ => ReduceIndexError
        end
      else
        match pyget bins_x (n - 1) with
        | Some b => ReduceOk (removelast accb ++ [b]) (removelast accc ++ [1])
        | None => ReduceIndexError
        end
  end.

(** [reduce_cdf_and_boundaries_to_nbins] (ecdf_transformer.py:410-486). *)
Definition reduce_cdf (bins_x : list fnum) (cdf_x : list Q) (n_bins : Z) (eps tol : Q)
  : reduce_result :=
  if (n_bins <? 2)%Z then RaiseNBins
  else match pyget bins_x 0 with
       | None => ReduceIndexError
       | Some b0 =>
           reduce_loop (Z.to_nat n_bins) bins_x cdf_x (1 / inject_Z n_bins) eps tol 0 0 [b0] [0]
       end.

(** [minimal_difference] (binning/_utils.py:46-59). *)
Fixpoint differences (l : list fnum) : list fnum :=
  match l with
  | a :: ((b :: _) as r) => fsub b a :: differences r
  | _ => []
  end.
Definition fmin (a b : fnum) : fnum := if fle a b then a else b.
Definition minimal_difference (l : list fnum) : fnum :=
  match filter (fun d => flt (Fin 0) d) (differences l) with
  | [] => Fin 1
  | d :: r => fold_left fmin r d
  end.

(** Scaling of a float by the (positive) constructor parameter epsilon. *)
Definition fscale (e : Q) (a : fnum) : fnum :=
  match a with
  | Fin q => Fin (e * q)
  | _ => a
  end.

(** Learned binning of one column (the entries of [bins_and_cdfs_]). *)
Inductive fit_result : Type :=
| FitNone (eps : Q)                                      (* no usable value, line 229 *)
| Fitted (eps : fnum) (boundaries : list fnum) (cdf : list Q)
| RaiseBroadcast                                          (* ValueError of numpy, line 246 *)
| RaiseTooFewBins
| FitIndexError.

(** Body of the loop of [ECdfTransformer.fit] for one column with feature
    property [prop] (ecdf_transformer.py:226-251). *)
Definition fit_column (prop : N) (n_bins : Z) (eps tol : Q) (zw : list (fnum * Q)) : fit_result :=
  let bins_x := z_unique zw in
  let cdf_x := cdf_values zw in
  match bins_x, cdf_x with
  | [], _ => FitNone eps
  | _, [] => FitNone eps
  | b0 :: _, _ =>
      if is_ordered_set prop || is_unordered_set prop then
        let bb := b0 :: bins_x in
        let cc := 0 :: cdf_x in
        (* bins_and_cdfs[:, 0] = bin_boundaries needs equal lengths *)
        if Nat.eqb (length bb) (length cc)
        then Fitted (fscale eps (minimal_difference bb)) bb cc
        else RaiseBroadcast
      else
        match reduce_cdf bins_x cdf_x n_bins eps tol with
        | ReduceOk bb cc => Fitted (fscale eps (minimal_difference bb)) bb cc
        | RaiseNBins => RaiseTooFewBins
        | ReduceIndexError => FitIndexError
        end
  end.

(** [_read_feature_property] (binning/_utils.py:13-43). *)
Inductive prop_result : Type :=
| PropNone
| Prop_ (p : N)
| RaiseFlags (e : flag_check).
Definition binning_feature_property {K} (props : option (K -> option N)) (col : K) : prop_result :=
  match props with
  | None => Prop_ IS_CONTINUOUS
  | Some d => match d col with
              | None => PropNone
              | Some p => match check_flags_consistency p with
                          | FlagsOk => Prop_ p
                          | e => RaiseFlags e
                          end
              end
  end.
