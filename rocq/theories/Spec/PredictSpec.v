(** What a trained feature group contributes to a row. *)
From Coq Require Import ZArith QArith List Bool Reals.
From Verif.Model Require Import Num LexBins Train Predict.
From Verif.Spec Require Import LexSpec TrainSpec.
Import ListNotations.
Local Open Scope R_scope.

(** [x] is the contribution of a feature group to a row: the value stored for the
    row's bin if it has one, the value for missing data if an entry is missing,
    infinite or negative, and neutral (0) for a bin number outside the training
    range. *)
Definition contributes (nbins : list Z) (values : list R) (missing : R) (row : list fnum) (x : R) : Prop :=
  (missing_entry row -> x = missing) /\
  (forall t, holds_tuple row t -> valid_tuple nbins t -> x = nth (Z.to_nat (number nbins t)) values 0) /\
  (forall t, holds_tuple row t -> length t = length nbins -> ~ valid_tuple nbins t -> ~ missing_entry row -> x = 0).

(** The entries are integers, or missing. *)
Definition whole (x : fnum) : Prop := isfinite x = true -> exists k, exists q, x = Fin q /\ (q == inject_Z k)%Q.
Definition whole_rows (rows : list (list fnum)) : Prop := forall row x, In row rows -> In x row -> whole x.

(** Training row number [j] as a data row. *)
Definition training_row (features : list feature) (j : nat) : datarow :=
  fun i => match nth_error features i with Some f => nth j (f_rows f) [] | None => [] end.
Definition training_data (features : list feature) (N : nat) : list datarow :=
  map (training_row features) (seq 0 N).

(** The model after a fit. *)
Definition trained_model (features : list feature) (st : state) : list trained :=
  map (fun fs => store (fst fs) (snd fs)) (combine features (t_feats st)).

(** Sum of the contributions [c] of the feature groups acting on the column. *)
Fixpoint group_sum (c : trained -> list fnum -> R) (e : bool) (i : nat) (ms : list trained) (x : datarow) : R :=
  match ms with
  | [] => 0
  | m :: r => (if Bool.eqb (m_ext m) e then c m (x i) else 0) + group_sum c e (S i) r x
  end.

(** Some training row without missing entries and with non-zero weight falls
    into the bin [t]. *)
Definition occurs (f : feature) (weights : list Q) (t : list Z) : Prop :=
  exists j row w, nth_error (f_rows f) j = Some row /\ nth_error weights j = Some w /\ ~ (w == 0)%Q /\
    ~ missing_entry row /\ map floor_of row = t.

(** The prediction of one feature group for a row on its own. *)
Definition alone (m : trained) (row : list fnum) : R := hd 0 (predict_factors m [row]).

(** The prior link prediction of row [j]. *)
Definition prior_of (scale offset : R) (linked : option (list (option R))) (j : nat) : R :=
  match linked with
  | None => scale
  | Some l => match nth j l None with Some x => x + offset | None => scale end
  end.
