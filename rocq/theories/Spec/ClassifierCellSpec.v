(** Vocabulary for what a single feature group of the classifier learns. *)
From Coq Require Import ZArith List Bool Reals.
From Verif.Model Require Import Num Train Estimators WholeFit.
From Verif.Spec Require Import LexSpec InsampleSpec CellSpec.
Import ListNotations.
Local Open Scope R_scope.

(** The estimate of a bin with the evidence [A] for the class 1 and [B] for the class 0, the
    mean of the Gaussian matched to two quantiles of a beta distribution, lies between 0 and
    the logarithm of [A]/[B], and is not too close to 0. *)
Definition between_evidence (bppf : R -> R -> R -> R) (erfinv : R -> R) : Prop := forall A B, 0 <= A -> 0 <= B ->
  exists e u, classifier_bin bppf erfinv A B = Some (e, u) /\
    (B <= A -> (A - B) / (A + 1) <= e /\ (0 < B -> e <= ln (A / B))) /\
    (A <= B -> (B - A) / (B + 1) <= - e /\ (0 < A -> - e <= ln (B / A))).

(** Training data for the classifier with the group [g]. *)
Definition class_data (g : group) (D : list sample) : Prop :=
  binned_rows [g] D /\ Forall (fun s => 0 <= x_w s /\ (x_y s = 0 \/ x_y s = 1)) D.
