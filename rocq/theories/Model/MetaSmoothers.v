(** Model of smoothing/meta_smoother.py and of the group-by smoothers of
    smoothing/multidim.py. NaN is [None]. *)
From Coq Require Import ZArith QArith Qreals Qround List Bool Reals.
From Verif.Model Require Import Num LexBins Train SmootherChoice.
Import ListNotations.
Local Open Scope R_scope.

(** A row of [X_for_smoother]: coordinates, weight sum, uncertainty. *)
Record srow := { r_x : list fnum; r_w : Q; r_u : R }.

(** A smoother: what [fit] keeps, what [predict] returns for a batch of rows, and
    the contents of the array of rows afterwards (some smoothers write to it). *)
Record smoothing_alg := {
  state : Type;
  fit : list srow -> list R -> state;
  predict : state -> list (list fnum) -> list (option R);
  rows_after : state -> list (list fnum) -> list (list fnum)
}.

(** [calc_norm] (meta_smoother.py:79-109). Reals are finite, so the replacement of a
    non-finite norm (103-109) does not arise. *)
Definition calc_norm (X : list srow) (y : list R) : R :=
  let weightsum := sumR (map (fun r => Q2R (r_w r)) X) in
  if Rltb 0 weightsum then sumR (map2 (fun v r => v * Q2R (r_w r)) y X) / weightsum else 0.

(** [NormalizationSmoother] (meta_smoother.py:111-117). *)
Definition normalization (s : smoothing_alg) : smoothing_alg := {|
  state := R * state s;
  fit := fun X y => let norm := calc_norm X y in (norm, fit s X (map (fun v => v - norm) y));
  predict := fun st rows => map (option_map (fun v => v + fst st)) (predict s (snd st) rows);
  rows_after := fun st rows => rows_after s (snd st) rows
|}.

(** [set_n_bins] (smoothing/base.py:27-38): per column the rounded maximum plus
    one; [ndim] columns. Rows of finite coordinates. *)
Definition fmax (a b : Q) : Q := if Qle_bool a b then b else a.
Definition fin_of (x : fnum) : Q := match x with Fin q => q | _ => 0%Q end.
Definition column_max (X : list srow) (d : nat) : Q :=
  match map (fun r => fin_of (nth d (r_x r) NaN)) X with
  | [] => 0%Q
  | x :: r => fold_left fmax r x
  end.
Definition n_bins_of (ndim : nat) (X : list srow) : list Z :=
  map (fun d => (np_round (Fin (column_max X d)) + 1)%Z) (seq 0 ndim).

(** [_selected_events_interpolating] (meta_smoother.py:120-124) for one row: the
    minimum of the coordinates is negative (NaN: not), or one lies above the last
    bin by more than one half. *)
Definition lt_fnum (x : fnum) (q : Q) : bool :=
  match x with Fin v => negb (Qle_bool q v) | NInf => true | _ => false end.
Definition gt_fnum (x : fnum) (q : Q) : bool :=
  match x with Fin v => negb (Qle_bool v q) | PInf => true | _ => false end.
Definition is_nan (x : fnum) : bool := match x with NaN => true | _ => false end.
Definition outside_bins (row : list fnum) (n_bins : list Z) : bool :=
  (negb (existsb is_nan row) && existsb (fun x => lt_fnum x 0) row)
  || existsb (fun p => gt_fnum (fst p) (inject_Z (snd p) - (1 # 2))) (combine row n_bins).

(** [apply_cut] (meta_smoother.py:155-181); an IndexError of [not_seen_events] is
    NaN here, too. *)
Definition cut_at (selected : list bool) (v : list (option R)) : list (option R) :=
  map2 (fun (b : bool) x => if b then None else x) selected v.
Definition apply_cut (t : regression_type) (n_bins : list Z) (weights : list Q) (rows : list (list fnum))
    (v : list (option R)) : list (option R) :=
  match t with
  | Discontinuous =>
      match not_seen_events (length n_bins) rows weights n_bins with
      | Some selected => cut_at selected v
      | None => map (fun _ => None) v
      end
  | Interpolating => cut_at (map (fun row => outside_bins row n_bins) rows) v
  | Extrapolating => v
  end.

(** [RegressionTypeSmoother] (meta_smoother.py:183-189) for [ndim] columns: the cut
    looks at the rows after the prediction. *)
Definition regression_type_smoother (ndim : nat) (t : regression_type) (s : smoothing_alg) : smoothing_alg := {|
  state := (list Z * list Q) * state s;
  fit := fun X y => ((n_bins_of ndim X, map r_w X), fit s X y);
  predict := fun st rows =>
    let smoothed := predict s (snd st) rows in
    apply_cut t (fst (fst st)) (snd (fst st)) (rows_after s (snd st) rows) smoothed;
  rows_after := fun st rows => rows_after s (snd st) rows
|}.

(** [NormalizationRegressionTypeSmoother] (meta_smoother.py:192-224). *)
Definition normalization_regression_type (ndim : nat) (t : regression_type) (s : smoothing_alg) : smoothing_alg := {|
  state := (list Z * list Q) * (R * state s);
  fit := fun X y =>
    let norm := calc_norm X y in
    ((n_bins_of ndim X, map r_w X), (norm, fit s X (map (fun v => v - norm) y)));
  predict := fun st rows =>
    let smoothed := map (option_map (fun v => v + fst (snd st))) (predict s (snd (snd st)) rows) in
    apply_cut t (fst (fst st)) (snd (fst st)) (rows_after s (snd (snd st)) rows) smoothed;
  rows_after := fun st rows => rows_after s (snd (snd st)) rows
|}.

(** Boolean masks: [x[mask]] and [target[mask] = x]. *)
Fixpoint select {A} (mask : list bool) (l : list A) : list A :=
  match mask, l with
  | true :: m, x :: r => x :: select m r
  | false :: m, _ :: r => select m r
  | _, _ => []
  end.
Fixpoint assign {A} (mask : list bool) (target values : list A) : list A :=
  match mask, target with
  | true :: m, t :: ts => match values with
                          | v :: vs => v :: assign m ts vs
                          | [] => t :: assign m ts []
                          end
  | false :: m, t :: ts => t :: assign m ts values
  | _, _ => []
  end.

(** [SectionSmoother] (meta_smoother.py:227-304). The argument
    [nan_representation] is not stored (line 264); [None]: the fit raises
    AssertionError (no rows). *)
Section Sections.
Variables (split_point epsilon : Q) (lower upper : smoothing_alg) (nan_representation : option R).
Definition stored_nan_representation : option R := let _ := nan_representation in None.
Definition split_condition (row : list fnum) : bool :=
  negb (gt_fnum (hd NaN row) (split_point + epsilon)) && negb (is_nan (hd NaN row)).
Definition section_state : Type := option (state lower) * option (state upper).
Definition section_fit (X : list srow) (y : list R) : option section_state :=
  let cond := map (fun r => split_condition (r_x r)) X in
  let below := select cond X in
  let above := select (map negb cond) X in
  let st := (match below with [] => None | _ => Some (fit lower below (select cond y)) end,
             match above with [] => None | _ => Some (fit upper above (select (map negb cond) y)) end) in
  match st with (None, None) => None | _ => Some st end.
Definition section_predict (st : section_state) (rows : list (list fnum)) : list (option R) :=
  let cond := map split_condition rows in
  let pred := map (fun _ => stored_nan_representation) rows in
  let pred := match fst st with
              | Some s => assign cond pred (predict lower s (select cond rows))
              | None => pred
              end in
  match snd st with
  | Some s => assign (map negb cond) pred (predict upper s (select (map negb cond) rows))
  | None => pred
  end.
End Sections.

(** [GroupBySmoother] (multidim.py:277-341) for [n_dim] columns, grouped on the
    first [n_dim - 1]; keys are bin numbers. [drop]: rows of groups without weight
    are left out (GroupBySmootherCB). *)
Record grow := { g_key : list Z; g_row : srow }.
Fixpoint key_eqb (a b : list Z) : bool :=
  match a, b with
  | [], [] => true
  | x :: r, y :: s => Z.eqb x y && key_eqb r s
  | _, _ => false
  end.
Definition sumQ : list Q -> Q := fold_right Qplus 0%Q.
Definition group_weight (X : list grow) (key : list Z) : Q :=
  sumQ (map (fun r => r_w (g_row r)) (filter (fun r => key_eqb (g_key r) key) X)).
Definition kept (drop : bool) (X : list grow) (r : grow) : bool :=
  negb drop || negb (Qle_bool (group_weight X (g_key r)) 0).

(** Keys in order of first occurrence. *)
Fixpoint distinct_keys (seen keys : list (list Z)) : list (list Z) :=
  match keys with
  | [] => []
  | k :: ks => if existsb (key_eqb k) seen then distinct_keys seen ks else k :: distinct_keys (k :: seen) ks
  end.
Definition group_by_fit (drop : bool) (s : smoothing_alg) (X : list grow) (y : list R) : list (list Z * state s) :=
  let mask := map (kept drop X) X in
  let X := select mask X in
  let y := select mask y in
  map (fun key =>
         let own := map (fun r => key_eqb (g_key r) key) X in
         (key, fit s (map g_row (select own X)) (select own y)))
      (distinct_keys [] (map g_key X)).
Fixpoint lookup {A} (key : list Z) (gb : list (list Z * A)) : option A :=
  match gb with
  | [] => None
  | (k, v) :: r => if key_eqb k key then Some v else lookup key r
  end.
(** [_predict_groups] (multidim.py:261-268) for each group of the rows. *)
Definition group_by_predict (s : smoothing_alg) (gb : list (list Z * state s)) (rows : list (list Z * list fnum))
  : list (option R) :=
  fold_left (fun pred key =>
      let own := map (fun r => key_eqb (fst r) key) rows in
      match lookup key gb with
      | Some st => assign own pred (predict s st (select own (map snd rows)))
      | None => assign own pred (map (fun _ => None) (select own rows))
      end)
    (distinct_keys [] (map fst rows)) (map (fun _ => None) rows).
