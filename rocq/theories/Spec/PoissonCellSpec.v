(** Vocabulary for what a single feature group of the Poisson regressor learns. *)
From Coq Require Import ZArith List Bool Reals.
From Verif.Model Require Import Num Train WholeFit.
From Verif.Spec Require Import LexSpec InsampleSpec CellSpec.
Import ListNotations.
Local Open Scope R_scope.

(** The median of a gamma distribution with shape [a] >= 2 is a - 1/3 and a bit. *)
Definition median_near (gm : R -> R) : Prop := forall a, 2 <= a -> a - 1/3 <= gm a <= a - 1/3 + 12/1000.

(** The documented limits of the factors of a group with a number of columns. *)
Definition smallest_factor (columns : nat) : R := if Nat.eqb columns 1 then 1/100 else 1/10.
Definition largest_factor (columns : nat) : R := if Nat.eqb columns 1 then 1000 else 100.

(** A number limited to a range. *)
Definition limited (lo hi x : R) : R := Rmin (Rmax x lo) hi.

(** Sum of the weighted targets. *)
Definition total_target (D : list sample) : R := fold_right (fun s a => x_w s * x_y s + a) 0 D.

(** Every constant prediction is off by at least 12/1000 (root mean square). *)
Definition spread (D : list sample) : Prop :=
  forall c, total_weight D * (12/1000)^2 <= squares D (repeat c (length D)).

(** The rows of a bin weigh at least as much as one row of weight 1, or nothing. *)
Definition full_cells (D : list sample) : Prop :=
  forall s cell, In s D -> cell_of D s cell -> cell_weight cell D = 0 \/ 1 <= cell_weight cell D.

(** Training data for the Poisson regressor with the group [g], of ordinary size. *)
Definition poisson_data (g : group) (D : list sample) : Prop :=
  binned_rows [g] D /\ Forall (fun s => 0 <= x_w s /\ 0 <= x_y s) D /\
  total_target D + total_weight D <= 999999999990 /\ full_cells D /\ spread D.
