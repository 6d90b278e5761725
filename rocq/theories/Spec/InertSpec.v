(** Vocabulary for trainings with and without one of the feature groups. *)
From Coq Require Import List Bool Arith Reals.
From Verif.Model Require Import Num Train Predict WholeFit.
From Verif.Spec Require Import LexSpec HierSpec.
Import ListNotations.
Local Open Scope R_scope.

(** A list without its element number [n]. *)
Fixpoint without {A} (n : nat) (l : list A) {struct l} : list A :=
  match l, n with
  | [], _ => []
  | _ :: r, O => r
  | x :: r, S m => x :: without m r
  end.
(** Where element number [j] of that list is in the whole list. *)
Definition place (n j : nat) : nat := if Nat.ltb j n then j else S j.
(** A row without the columns of group [n]. *)
Definition row_without (n : nat) (s : sample) : sample :=
  {| x_bins := fun j => x_bins s (place n j); x_prior := x_prior s; x_y := x_y s; x_w := x_w s |}.

(** In group [n] every row has a missing entry. *)
Definition no_values (n : nat) (D : list sample) : Prop := forall s, In s D -> missing_entry (x_bins s n).

(** No pass of the training is a divergence. *)
Definition never_diverging (gamma_median : R -> R) (beta_ppf : R -> R -> R -> R) (erfinv : R -> R) (bad : R) (k : kind)
    (prior : bool) (gs : list group) (cfg : settings) (rate : nat -> nat -> R) (D : list sample) : Prop :=
  forall scale offset st, kind_scale k (map x_y D) (map x_w D) = Some scale ->
    offset = kind_offset k scale (map x_prior D) (map x_w D) ->
    training_state gamma_median beta_ppf erfinv bad k prior gs cfg rate D scale offset st -> t_isdiv st = false.

(** Two trained estimators of the kind [k] that differ only in group [n] and predict the same. *)
Definition same_but (n : nat) (k : kind) (prior : bool) (t t' : model) : Prop :=
  o_scale t' = o_scale t /\ o_offset t' = o_offset t /\ o_iterations t' = o_iterations t /\ o_loss t' = o_loss t /\
  o_groups t' = without n (o_groups t) /\
  forall X, whole_predict k prior t' (map (row_without n) X) = whole_predict k prior t X.
Definition same_result (n : nat) (k : kind) (prior : bool) (r r' : result) : Prop :=
  match r, r' with
  | Trained t, Trained t' => same_but n k prior t t'
  | Failed e, Failed e' => e = e'
  | NoBaseline, NoBaseline => True
  | MoreIterations, MoreIterations => True
  | _, _ => False
  end.
