(** Vocabulary for what a single feature group of the Poisson-like location regressor learns. *)
From Coq Require Import List Bool Reals.
From Verif.Model Require Import Num Train WholeFit.
From Verif.Spec Require Import CellSpec LocationCellSpec.
Import ListNotations.
Local Open Scope R_scope.

(** Weighted standard deviation of all targets. *)
Definition target_spread (D : list sample) : R :=
  sqrt (overall (fun s => x_w s * (x_y s - mean_target D) ^ 2) D / overall x_w D).
(** Mean of the weights of the rows of a bin, each counted with its weight. *)
Definition typical_weight (cell : sample -> bool) (D : list sample) : R :=
  cell_sum cell (fun s => x_w s ^ 2) D / cell_weight cell D.
(** The part of the distance to the mean target that a bin learns in a full step. *)
Definition learned_share (cell : sample -> bool) (D : list sample) : R :=
  cell_weight cell D / (cell_weight cell D + (typical_weight cell D / target_spread D) ^ 2).
(** What is left of the distance after a number of passes. *)
Fixpoint distance_left (rate : nat -> R) (share : R) (passes : nat) : R :=
  match passes with
  | O => 1
  | S n => distance_left rate share n * (1 - rate n * share)
  end.
(** Targets for this regressor: none is negative and not all are the same. *)
Definition poisson_targets (D : list sample) : Prop :=
  Forall (fun s => 0 <= x_y s) D /\ exists s s', In s D /\ In s' D /\ x_y s <> x_y s'.
