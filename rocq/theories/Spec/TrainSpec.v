(** What a training history is, and what the stored factors of a row sum up to. *)
From Coq Require Import ZArith List Bool Reals.
From Verif.Model Require Import Num LexBins Train.
Import ListNotations.
Local Open Scope R_scope.

Section Histories.
Variable cfg : settings.
Variable features : list feature.
Variable calc : nat -> nat -> preds -> list R.
Variable smooth : nat -> nat -> preds -> list R -> nat -> option R.
Variable calib : nat -> list R -> list R.
Variable rate : nat -> nat -> R.
Variable loss : preds -> R.
Variable prior : preds.

(** States at the head of the training loop, from the start on. *)
Inductive reached : state -> Prop :=
| reached_start : reached (init_state features loss prior)
| reached_next st st' : reached st -> continues cfg st = true ->
    iteration cfg features calc smooth calib rate loss (loss prior) st = Ok st' -> reached st'.
End Histories.

(** Every row of the training data has one entry per feature of the group, and
    all groups and the prior have the same number of rows. *)
Definition well_shaped (N : nat) (features : list feature) (prior : preds) : Prop :=
  length (p_factors prior) = N /\ length (p_exponents prior) = N /\
  forall f, In f features -> length (f_rows f) = N /\
    forall row, In row (f_rows f) -> length row = f_dim f.

(** The oracles return one value for each bin. *)
Definition one_per_bin (features : list feature) (calc : nat -> nat -> preds -> list R)
    (calib : nat -> list R -> list R) : Prop :=
  (forall i f it p, nth_error features i = Some f -> length (calc i it p) = S (f_finite f)) /\
  (forall i v, v <> [] -> length (calib i v) = length v).

(** Value stored for training row [j] of feature [f] in the vector [v]. *)
Definition contribution (f : feature) (v : list R) (j : nat) : R := nth (nth j (f_lex f) 0%nat) v 0.

(** Sum over the feature groups that act on the factors ([ext = false]) or on the
    exponents ([ext = true]). *)
Fixpoint contributions (ext : bool) (fl : list feature) (vs : list (list R)) (j : nat) : R :=
  match fl, vs with
  | f :: fl', v :: vs' => (if Bool.eqb (f_ext f) ext then contribution f v j else 0) + contributions ext fl' vs' j
  | _, _ => 0
  end.

(** The factors learned so far ([fitted_aggregated]); neutral before the first fit. *)
Definition learned (s : fstate) : list R :=
  match s_agg s with Some a => a | None => map (fun _ => 0) (s_factors s) end.

(** The loss exceeds twice the initial loss. *)
Definition diverges (initial l : R) : Prop := initial * 2 < l.

Section HistoriesWithLosses.
Variable cfg : settings.
Variable features : list feature.
Variable calc : nat -> nat -> preds -> list R.
Variable smooth : nat -> nat -> preds -> list R -> nat -> option R.
Variable calib : nat -> list R -> list R.
Variable rate : nat -> nat -> R.
Variable loss : preds -> R.
Variable prior : preds.

(** A training history with the losses after each of its iterations, newest first. *)
Inductive history : list R -> state -> Prop :=
| history_start : history [] (init_state features loss prior)
| history_next ls st st' : history ls st -> continues cfg st = true ->
    iteration cfg features calc smooth calib rate loss (loss prior) st = Ok st' ->
    history (t_loss st' :: ls) st'.
End HistoriesWithLosses.

(** Number of diverging iterations among the given losses. *)
Inductive diverging_count (initial : R) : list R -> nat -> Prop :=
| count_none : diverging_count initial [] 0
| count_yes l ls n : diverges initial l -> diverging_count initial ls n -> diverging_count initial (l :: ls) (S n)
| count_no l ls n : ~ diverges initial l -> diverging_count initial ls n -> diverging_count initial (l :: ls) n.

(** Bound on the number of iterations. *)
Definition iteration_bound (cfg : settings) : nat :=
  (Nat.max (c_maxiter cfg) (if c_hier cfg then S (c_thier cfg) else 0) + 4)%nat.

(** At least one iteration is executed. *)
Definition some_iteration (cfg : settings) : Prop :=
  c_hier cfg = true \/
  ((0 < c_maxiter cfg)%nat /\ c_minfactor cfg < 100 /\ c_minloss cfg < IZR (10 ^ 20)).

(** Documented limits of a learned factor: [0.01, 1000] for one-dimensional and
    [0.1, 100] for multi-dimensional groups, [0.05, 20] and [0.1, 5] for groups
    acting on an external column. *)
Definition factor_within (f : feature) (x : R) : Prop :=
  (f_ext f = false -> f_dim f = 1%nat -> 1/100 <= x <= 1000) /\
  (f_ext f = false -> f_dim f <> 1%nat -> 1/10 <= x <= 100) /\
  (f_ext f = true -> f_dim f = 1%nat -> 5/100 <= x <= 20) /\
  (f_ext f = true -> f_dim f <> 1%nat -> 1/10 <= x <= 5).

(** The learned factors of trained feature group number [m] in original space. *)
Definition learned_factor (st : state) (m k : nat) (x : R) : Prop :=
  exists s a, nth_error (t_feats st) m = Some s /\ s_agg s = Some a /\ (k < length a)%nat /\ x = exp (nth k a 0).

(** Column of the link predictions. *)
Definition column (ext : bool) (p : preds) : list R := if ext then p_exponents p else p_factors p.
