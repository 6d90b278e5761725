(** Model of prediction with a trained estimator: cyclic_boosting/base.py
    (_predict_factors, _pred_feature, predict_extended), features.py
    (prepare_feature), smoothing/onedim.py and smoothing/multidim.py
    (PredictingBinValueMixin), and of the wrapper smoothing/meta_smoother.py
    (RegressionTypeSmoother). *)
From Coq Require Import ZArith QArith Qround List Bool Reals.
From Verif.Model Require Import Num LexBins Train.
Import ListNotations.
Local Open Scope R_scope.

(** [set_n_bins] (smoothing/base.py:27-38) on the bin centres: per column the
    maximum plus one. *)
Fixpoint zmax_cols (a b : list Z) : list Z :=
  match a, b with
  | x :: r, y :: s => Z.max x y :: zmax_cols r s
  | _, _ => []
  end.
Definition set_n_bins (centres : list (list Z)) : list Z :=
  match centres with
  | [] => []
  | r :: rs => map (fun x => (x + 1)%Z) (fold_left zmax_cols rs r)
  end.

(** [onedim.PredictingBinValueMixin.predict] (onedim.py:42-51) for one row;
    [None] is NaN. *)
Definition onedim_predict (values : list R) (row : list fnum) : option R :=
  let x := hd NaN row in
  let k := np_round x in
  if isfinite x && nonneg x && (k <? Z.of_nat (length values))%Z
  then Some (nth (Z.to_nat k) values 0) else None.

(** [multidim.PredictingBinValueMixin.predict] (multidim.py:41-59) for one row. *)
Fixpoint floors_below (row : list fnum) (n_bins : list Z) : bool :=
  match row, n_bins with
  | x :: r, n :: ns => isfinite x && nonneg x && (floor_of x <? n)%Z && floors_below r ns
  | _, _ => true
  end.
Definition multidim_predict (n_bins : list Z) (values : list R) (row : list fnum) : option R :=
  if floors_below row n_bins
  then Some (nth (Z.to_nat (dot (map floor_of row) (tl (bin_steps n_bins)))) values 0) else None.

(** A feature group of a trained estimator, after [prepare_feature] and
    [unbind_factor_data] (features.py:185-191, 260-268). [m_smoother = false]:
    the smoother is None (features.py:256-257). *)
Record trained := {
  m_dim : nat;
  m_nbins : list Z;
  m_ext : bool;
  m_values : list R;     (* smoothed_y_ *)
  m_missing : R;         (* factors_link[-1] *)
  m_smoother : bool
}.

Definition store (f : feature) (s : fstate) : trained :=
  let a := match s_agg s with Some a => a | None => [] end in
  let n := f_finite f in
  {| m_dim := f_dim f;
     m_nbins := set_n_bins (if Nat.eqb n 0 then [] else arange_multi (f_nbins f));
     m_ext := f_ext f;
     m_values := firstn n a;
     m_missing := nth n a 0;
     m_smoother := negb (Nat.eqb n 0) |}.

(** [_predict_factors] (base.py:116-126) with learn_rate 1.0 and neutral
    factor 0, on a batch. *)
Definition smoother_predict (m : trained) (row : list fnum) : option R :=
  if Nat.ltb (m_dim m) 2 then onedim_predict (m_values m) row
  else multidim_predict (m_nbins m) (m_values m) row.
Definition predict_factors (m : trained) (rows : list (list fnum)) : list R :=
  let any := existsb row_finite_semi_positive rows in
  map (fun row =>
    if row_finite_semi_positive row then
      if any && m_smoother m
      then match smoother_predict m row with Some v => 1 * v | None => 0 end
      else 0
    else m_missing m) rows.

(** A data row: the bin numbers of each feature group. *)
Definition datarow := nat -> list fnum.

(** [predict_extended] (base.py:843-856, price.py:405-415) without influence
    categories. *)
Fixpoint predict_from (i : nat) (ms : list trained) (p : preds) (X : list datarow) : preds :=
  match ms with
  | [] => p
  | m :: r => predict_from (S i) r (add_preds (m_ext m) p (predict_factors m (map (fun x => x i) X))) X
  end.
Definition predict_extended := predict_from 0.

(** [_get_prior_predictions] (base.py:446-455): without a prior prediction column
    the global scale, with one the linked prior plus the offset, non-finite values
    replaced. [linked]: the linked values, [None] for a non-finite one. *)
Definition prior_predictions (scale offset : R) (linked : option (list (option R))) (n : nat) : list R :=
  match linked with
  | None => repeat scale n
  | Some l => map (fun v => match v with Some x => x + offset | None => scale end) l
  end.

(** [RegressionTypeSmoother.apply_cut] (meta_smoother.py:155-181) during
    training, i.e. on the bin centres, for the type discontinuous: bins without
    training weight become NaN. *)
Definition centre_rows (centres : list (list Z)) : list (list fnum) :=
  map (map (fun k => Fin (inject_Z k))) centres.
Definition discontinuous_cut (n_bins : list Z) (weights : list Q) (v : nat -> option R) (k : nat) : option R :=
  match not_seen_events (length n_bins) (centre_rows (arange_multi n_bins)) weights
          (set_n_bins (arange_multi n_bins)) with
  | Some mask => if nth k mask false then None else v k
  | None => None
  end.

(** [finite_bin_weightsums]: [np.bincount(lex_binned_data, weights=weights,
    minlength=n_bins)[:-1]] (features.py:142-145, 171). *)
Fixpoint bincount (lex : list nat) (weights : list Q) (k : nat) : Q :=
  match lex, weights with
  | b :: r, w :: ws => ((if Nat.eqb b k then w else 0) + bincount r ws k)%Q
  | _, _ => 0%Q
  end.
Definition finite_bin_weightsums (f : feature) (weights : list Q) : list Q :=
  map (bincount (f_lex f) weights) (seq 0 (f_finite f)).

(** [predict] of the regressors (base.py:839-856, 446-455): the inverse
    link of the link prediction started from the prior prediction. *)
Definition cb_predict (unlink : R -> R) (scale offset : R) (ms : list trained)
    (linked : option (list (option R))) (X : list datarow) : list R :=
  map unlink (p_factors (predict_extended ms
    {| p_factors := prior_predictions scale offset linked (length X); p_exponents := zeros (length X) |} X)).
