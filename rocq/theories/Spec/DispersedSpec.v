(** Vocabulary for what a single feature group of the negative binomial regressor learns. *)
From Coq Require Import ZArith List Bool Reals.
From Verif.Model Require Import Num Train WholeFit.
From Verif.Spec Require Import LexSpec InsampleSpec CellSpec PoissonCellSpec.
Import ListNotations.
Local Open Scope R_scope.

(** The largest ratio of variance and mean for predictions up to [top] + 1. *)
Definition dispersion (a c top : R) : R := a + c * (top + 1).

(** The rows of a bin weigh enough to estimate their mean up to [tol], or nothing. *)
Definition heavy_cells (a c top tol : R) (D : list sample) : Prop :=
  forall s cell, In s D -> cell_of D s cell ->
    cell_weight cell D = 0 \/ 12/1000 * dispersion a c top <= tol * cell_weight cell D.

(** Training data for the negative binomial regressor with parameters [a] and [c] and the
    group [g]: targets up to [top], total weight of ordinary size, and every constant
    prediction is off by at least [tol] (root mean square). *)
Definition dispersed_data (a c top tol : R) (g : group) (D : list sample) : Prop :=
  0 < a /\ 0 <= c /\ 0 <= top /\ 0 < tol <= 1 - 1/1000 /\
  binned_rows [g] D /\ Forall (fun s => 0 <= x_w s /\ 0 <= x_y s <= top) D /\
  total_weight D * (top + 1) <= 999999999990 * a /\
  heavy_cells a c top tol D /\
  (forall k, total_weight D * tol ^ 2 <= squares D (repeat k (length D))).
