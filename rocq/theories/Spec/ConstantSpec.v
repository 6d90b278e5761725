(** Vocabulary for trainings compared with their baseline. *)
From Coq Require Import ZArith List Bool Reals.
From Verif.Model Require Import Num LexBins Train Predict Link WholeFit.
From Verif.Spec Require Import InsampleSpec.
Import ListNotations.
Local Open Scope R_scope.

(** The predictions of the constant baseline for [n] rows. *)
Definition baseline (k : kind) (t : model) (n : nat) : list R :=
  repeat (unlink_func (kind_link k) (o_scale t)) n.

(** A smoother that makes nothing out of estimates that are all 0. *)
Definition keeps_zero (s : list (list Z) -> list R -> list R -> list R -> nat -> option R) : Prop :=
  forall centres weights uncertainties values b v,
    length uncertainties = length values -> (forall x, In x values -> x = 0) -> (b < length values)%nat ->
    s centres weights uncertainties values b = Some v -> v = 0.

(** The mean squared deviation is defined: the background subtraction regressor divides by
    the weight of the rows with a target other than 0. *)
Definition defined_loss (k : kind) (D : list sample) : Prop :=
  match k with GBSRegressor _ => visits D <> 0 | _ => True end.

(** [CBLocPoissonRegressor] replaces negative predictions by 0, after training only. *)
Definition usable_targets (k : kind) (D : list sample) : Prop :=
  match k with LocPoissonRegressor => Forall (fun s => 0 <= x_y s) D | _ => True end.
