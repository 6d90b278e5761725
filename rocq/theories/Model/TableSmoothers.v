(** Model of the meta-smoothers [Neutralize2DMetaSmoother] and
    [PriorExpectationMetaSmoother] of smoothing/multidim.py and smoothing/onedim.py, on the
    bins of a training, as in BinSmoothers.v. *)
From Coq Require Import ZArith List Bool Reals.
From Verif.Model Require Import Num LexBins Train Regularize BinSmoothers.
Import ListNotations.
Local Open Scope R_scope.

(** One entry of [np.max(X_for_smoother[:, :2], axis=0).astype(np.int64) + 1]
    (multidim.py:376); the bin centres are whole numbers that are not negative. *)
Definition table_bins (d : nat) (centres : list (list Z)) : nat :=
  Z.to_nat (fold_right Z.max 0%Z (map (fun c => nth d c 0%Z) centres) + 1).

(** [np.reshape(l, (n, m))]; [None]: ValueError for another number of values. *)
Definition reshape (n m : nat) (l : list R) : option table :=
  if Nat.eqb (length l) (n * m) then Some (map (fun i => firstn m (skipn (i * m) l)) (seq 0 n)) else None.

(** The first part of [Neutralize2DMetaSmoother.fit] (multidim.py:368-381): the values the
    inner smoother is fitted to. [None]: ValueError (a group of one column, a shape that
    does not fit, or no rows). The uncertainties are positive, see
    [neutralize_one_dim_influence]. *)
Definition neutralized_values (centres : list (list Z)) (uncertainties values : list R) : option (list R) :=
  match centres with
  | [] => None
  | c :: _ =>
      if Nat.ltb (length c) 2 then None
      else
        let n := table_bins 0 centres in
        let m := table_bins 1 centres in
        match reshape n m values, reshape n m uncertainties with
        | Some values, Some uncertainties =>
            match neutralize_one_dim_influence 5 values uncertainties with
            | Some (neutralized, _) => Some (concat neutralized)
            | None => None
            end
        | _, _ => None
        end
  end.

(** [Neutralize2DMetaSmoother] (multidim.py:365-386). The ValueError is no value here. *)
Definition neutralised_2d (s : bin_smoother) : bin_smoother := fun centres weights uncertainties values k =>
  match neutralized_values centres uncertainties values with
  | Some y => s centres weights uncertainties y k
  | None => None
  end.

(** [PriorExpectationMetaSmoother] (onedim.py:497-510, multidim.py:255-274): the prediction
    of the inner smoother for each bin, regularised to the prior expectation of the bin (a
    number for all bins is a constant function). A comparison with NaN is false, so that
    [regularize_to_prior_expectation] (utils.py:754-758) returns the prior expectation for
    NaN. The variant for several columns raises ValueError for one column
    (multidim.py:263-264), which is left out here. *)
Definition prior_expectation_meta (prior : nat -> R) (threshold : R) (s : bin_smoother) : bin_smoother :=
  fun centres weights uncertainties values k =>
  match nth_error uncertainties k with
  | Some u =>
      match s centres weights uncertainties values k with
      | Some v => regularize_to_prior_expectation v u (prior k) threshold
      | None => Some (prior k)
      end
  | None => None
  end.
