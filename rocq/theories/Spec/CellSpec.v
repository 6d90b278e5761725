(** Vocabulary for what a single feature group learns. *)
From Coq Require Import ZArith List Bool Reals.
From Verif.Model Require Import Num Train WholeFit.
From Verif.Spec Require Import LexSpec.
Import ListNotations.
Local Open Scope R_scope.

(** Two rows that belong to the same bin of a feature group: they hold the same bin
    numbers, or an entry is missing in both. *)
Definition same_cell (a b : list fnum) : Prop :=
  (exists t, holds_tuple a t /\ holds_tuple b t) \/ (missing_entry a /\ missing_entry b).

(** The rows of [D] in the same bin of the first group as [s]. *)
Definition cell_of (D : list sample) (s : sample) (cell : sample -> bool) : Prop :=
  forall s', In s' D -> cell s' = true <-> same_cell (x_bins s 0%nat) (x_bins s' 0%nat).

(** Sums over the rows of a bin. *)
Fixpoint cell_sum (cell : sample -> bool) (v : sample -> R) (D : list sample) : R :=
  match D with
  | [] => 0
  | s :: r => (if cell s then v s else 0) + cell_sum cell v r
  end.
Definition cell_weight (cell : sample -> bool) (D : list sample) : R := cell_sum cell x_w D.
(** [m] is the weighted mean target of the bin. *)
Definition cell_mean (cell : sample -> bool) (D : list sample) (m : R) : Prop :=
  m * cell_weight cell D = cell_sum cell (fun s => x_w s * x_y s) D.

(** The part of the distance between baseline and mean that is left after a number of
    passes, for a bin of weight [W]. *)
Fixpoint left_over (rate : nat -> R) (regalpha W : R) (passes : nat) : R :=
  match passes with
  | O => 1
  | S n => left_over rate regalpha W n * (1 - rate n * (W / (W * (1 + regalpha) + 1)))
  end.
