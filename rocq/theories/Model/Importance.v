(** Model of feature importances and of the booking of contributions:
    cyclic_boosting/base.py (UpdateMixin, set/get_feature_importances,
    get_feature_contributions), features.py, utils.py, price.py
    (CBLinkPredictions). *)
From Coq Require Import ZArith List Bool String Reals.
From Verif.Model Require Import Num LexBins Train Predict.
Import ListNotations.
Local Open Scope R_scope.

(** [np.bincount(lex, minlength=n)[k]] (features.py:277), without weights. *)
Definition bin_rows (lex : list nat) (k : nat) : R :=
  INR (List.length (filter (Nat.eqb k) lex)).

(** [set_feature_bin_deviations_from_neutral] (features.py:276-279) with neutral
    value 0. *)
Definition bin_weighted_average (lex : list nat) (factors : list R) : R :=
  let w := map (bin_rows lex) (seq 0 (List.length factors)) in
  sumR (map2 (fun wk fk => wk * Rabs (fk - 0) / sumR w) w factors).

(** [get_normalized_values] (utils.py:1077-1081). [round(total, 6)] is 0 exactly
    for [abs(total) <= 0.5e-6] (rounding half to even). *)
Definition rounds_to_zero (x : R) : bool := Rleb (Rabs x) (5 / 10000000).
Definition get_normalized_values (values : list R) : list R :=
  let total := sumR values in
  if rounds_to_zero total then values else map (fun v => v / total) values.

(** Names of columns: strings, or integers for numpy data. *)
Inductive column := CName (s : string) | CIndex (i : Z).

(** ["_".join(feature_group)]; [None] is the TypeError for integers. *)
Fixpoint column_names (g : list column) : option (list string) :=
  match g with
  | [] => Some []
  | CName s :: r => match column_names r with Some l => Some (s :: l) | None => None end
  | CIndex _ :: _ => None
  end.
Definition joined (sep : string) (g : list column) : option string :=
  match column_names g with Some l => Some (String.concat sep l) | None => None end.

(** A Python dict: keys in the order of their first insertion. *)
Fixpoint dict_set {A} (d : list (string * A)) (k : string) (v : A) : list (string * A) :=
  match d with
  | [] => [(k, v)]
  | (k', v') :: r => if String.eqb k k' then (k, v) :: r else (k', v') :: dict_set r k v
  end.
Fixpoint dict_get {A} (d : list (string * A)) (k : string) : option A :=
  match d with
  | [] => None
  | (k', v') :: r => if String.eqb k k' then Some v' else dict_get r k
  end.

(** Dict comprehension over (name, value) pairs. *)
Fixpoint dict_of {A} (d : list (string * A)) (l : list (option string * A)) : option (list (string * A)) :=
  match l with
  | [] => Some d
  | (Some k, v) :: r => dict_of (dict_set d k v) r
  | (None, _) :: _ => None
  end.

(** [self.feature_importances] (base.py:303, 970-974): keyed by feature objects,
    which every fit creates anew (base.py:444), and never reset. The entries in
    insertion order: feature group and average. *)
Definition importances := list (list column * R).
Definition set_feature_importances (groups : list (list column)) (features : list feature)
    (sl : list fstate) (old : importances) : importances :=
  old ++ map2 (fun g fs => (g, bin_weighted_average (f_lex (fst fs))
                                 (match s_agg (snd fs) with Some a => a | None => [] end)))
              groups (combine features sl).

Inductive importance_result :=
| NotFitted                                 (* ValueError, base.py:980-981 *)
| JoinTypeError                             (* "_".join of integers *)
| Importances (d : list (string * R)).

(** [get_feature_importances] (base.py:976-988). *)
Definition get_feature_importances (imp : importances) : importance_result :=
  match imp with
  | [] => NotFitted
  | _ =>
      let normalized := get_normalized_values (map snd imp) in
      match dict_of [] (combine (map (fun e => joined "_" (fst e)) imp) normalized) with
      | Some d => Importances d
      | None => JoinTypeError
      end
  end.

(** [get_feature_contributions] (base.py:990-1015): per feature group the unlinked
    prediction of the group, keyed by the names joined with blanks and the feature
    type. *)
Definition contribution_key (g : list column) (ext : bool) : option string :=
  match joined " " g with
  | Some s => Some (s ++ (if ext then "_external" else ""))%string
  | None => None
  end.
Fixpoint contribution_items (unlink : R -> R) (i : nat) (groups : list (list column)) (ms : list trained)
    (X : list datarow) : list (option string * list R) :=
  match groups, ms with
  | g :: gr, m :: r =>
      (contribution_key g (m_ext m), map unlink (predict_factors m (map (fun x => x i) X)))
        :: contribution_items unlink (S i) gr r X
  | _, _ => []
  end.
Definition get_feature_contributions (unlink : R -> R) (groups : list (list column)) (ms : list trained)
    (X : list datarow) : option (list (string * list R)) :=
  dict_of [] (contribution_items unlink 0 groups ms X).

(** The data frame of the link predictions, a partial map from column names to
    columns (base.py:51-53, 98-99; price.py:451-459). *)
Definition frame := string -> option (list R).
Definition set_col (d : frame) (c : string) (v : list R) : frame :=
  fun x => if String.eqb x c then Some v else d x.
Definition frame_factors (predictions : list R) : frame :=
  set_col (fun _ => None) "factors" predictions.
Definition frame_price (predictions exponents base : list R) : frame :=
  set_col (set_col (set_col (set_col (fun _ => None) "factors" predictions)
    "prior_exponents" exponents) "exponents" (zeros (List.length exponents))) "base" base.

(** [df[c] += pred], [df[c] -= pred]; [None] is the KeyError of a missing column. *)
Definition frame_add (d : frame) (c : string) (pred : list R) : option frame :=
  match d c with Some v => Some (set_col d c (vadd v pred)) | None => None end.
Definition frame_sub (d : frame) (c : string) (pred : list R) : option frame :=
  match d c with Some v => Some (set_col d c (vsub v pred)) | None => None end.

(** [include_factor_contrib] (base.py:59-65) and [remove_factor_contrib]
    (base.py:70-76), which stores [pred] itself for a new category. *)
Definition include_factor_contrib (d : frame) (pred : list R) (cat : option string) : option frame :=
  match frame_add d "factors" pred with
  | None => None
  | Some d1 =>
      match cat with
      | None => Some d1
      | Some c => match d1 c with
                  | Some _ => frame_add d1 c pred
                  | None => Some (set_col d1 c pred)
                  end
      end
  end.
Definition remove_factor_contrib (d : frame) (pred : list R) (cat : option string) : option frame :=
  match frame_sub d "factors" pred with
  | None => None
  | Some d1 =>
      match cat with
      | None => Some d1
      | Some c => match d1 c with
                  | Some _ => frame_sub d1 c pred
                  | None => Some (set_col d1 c pred)
                  end
      end
  end.

(** [get_influence_category] (base.py:35-47). Keys of the dict are tuples or
    single names; the outer [None] is the KeyError. *)
Inductive cat_key := KTuple (g : list string) | KName (s : string).
Definition get_influence_category (group : list string) (cats : option (cat_key -> option string))
  : option (option string) :=
  match cats with
  | None => Some None
  | Some d =>
      match d (KTuple group) with
      | Some c => Some (Some c)
      | None =>
          match group with
          | [s] => match d (KName s) with Some c => Some (Some c) | None => None end
          | _ => None
          end
      end
  end.

(** [update_predictions] and [remove_predictions] (base.py:78-92) with
    [include_price_contrib], [remove_price_contrib] (base.py:55-57, 67-68). *)
Definition update_predictions (d : frame) (pred : list R) (group : list string) (ext : bool)
    (cats : option (cat_key -> option string)) : option frame :=
  if ext then frame_add d "exponents" pred
  else match get_influence_category group cats with
       | Some c => include_factor_contrib d pred c
       | None => None
       end.
Definition remove_predictions (d : frame) (pred : list R) (group : list string) (ext : bool)
    (cats : option (cat_key -> option string)) : option frame :=
  if ext then frame_sub d "exponents" pred
  else match get_influence_category group cats with
       | Some c => remove_factor_contrib d pred c
       | None => None
       end.

(** [predict_link] (base.py:101-105; price.py:461-475). *)
Definition predict_link_factors (d : frame) : option (list R) := d "factors"%string.
Definition predict_link_price (d : frame) : option (list R) :=
  match d "factors"%string, d "prior_exponents"%string, d "exponents"%string, d "base"%string with
  | Some f, Some pe, Some e, Some b =>
      Some (vadd f (map2 Rmult (map2 (fun p x => p * exp x) pe e) b))
  | _, _, _, _ => None
  end.
