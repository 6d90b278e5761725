(** Monotone sequences and least squares. *)
From Coq Require Import ZArith QArith Qreals NArith List Bool Reals.
From Verif.Model Require Import Num Flags SmootherChoice MetaSmoothers.
Import ListNotations.
Local Open Scope R_scope.

Definition nondecreasing (l : list R) : Prop :=
  forall i j, (i <= j < length l)%nat -> nth i l 0 <= nth j l 0.
Definition nonincreasing (l : list R) : Prop :=
  forall i j, (i <= j < length l)%nat -> nth j l 0 <= nth i l 0.
Definition follows (increasing : bool) (l : list R) : Prop :=
  if increasing then nondecreasing l else nonincreasing l.

(** Sum of w (y - z)^2. *)
Fixpoint squared_error (w y z : list R) : R :=
  match w, y, z with
  | a :: w', b :: y', c :: z' => a * (b - c) ^ 2 + squared_error w' y' z'
  | _, _, _ => 0
  end.

(** [v] is a monotone sequence with the smallest error. *)
Definition best_monotone (increasing : bool) (w y v : list R) : Prop :=
  length v = length y /\ follows increasing v /\
  forall z, length z = length y -> follows increasing z -> squared_error w y v <= squared_error w y z.

(** Inverse variances; a bin without a positive uncertainty has the uncertainty
    10^12. *)
Definition inverse_variance (sigma v : R) : Prop :=
  (0 < sigma -> v = 1 / sigma ^ 2) /\ (sigma <= 0 -> v = 1 / 10 ^ 24).

(** Flags of a monotonic column that are not overruled by others. *)
Definition monotonic (p : N) : Prop :=
  is_monotonic_set p = true /\ is_linear_set p = false /\ is_seasonal_set p = false.
Definition monotonic_increasing (p : N) : Prop := monotonic p /\ increasing_set p = true.
Definition monotonic_decreasing (p : N) : Prop :=
  monotonic p /\ increasing_set p = false /\ decreasing_set p = true.

(** The rows are sorted by their first coordinate, a finite number. *)
Definition sorted_rows (X : list srow) : Prop :=
  (forall r, In r X -> exists q, hd NaN (r_x r) = Fin q) /\
  forall i j a b, (i < j)%nat -> nth_error X i = Some a -> nth_error X j = Some b ->
    (fin_of (hd NaN (r_x a)) < fin_of (hd NaN (r_x b)))%Q.

(** The first [n] entries of [v] follow the direction. *)
Definition follows_to (increasing : bool) (n : nat) (v : list R) : Prop :=
  forall i j, (i <= j < n)%nat -> if increasing then nth i v 0 <= nth j v 0 else nth j v 0 <= nth i v 0.

(** A calibration that moves all [n] regular bins by the same amount; the last entry
    belongs to the missing bin. *)
Definition moves_all (n : nat) (g : list R -> list R) : Prop :=
  forall v, length v = S n -> exists c, forall k, (k < n)%nat -> nth k (g v) 0 = nth k v 0 + c.

(** The direction given to the smoother is kept. *)
Definition keeps_direction (d : direction) (increasing : bool) : Prop :=
  match d with IncreasingOnly => increasing = true | DecreasingOnly => increasing = false | AutoDirection => True end.

(** Each entry is above (below) the one before. *)
Definition strictly (increasing : bool) (l : list R) : Prop :=
  forall i j, (i < j < length l)%nat -> if increasing then nth i l 0 < nth j l 0 else nth j l 0 < nth i l 0.
