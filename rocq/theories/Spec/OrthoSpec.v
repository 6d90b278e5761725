(** Polynomials and weighted squared errors. *)
From Coq Require Import QArith Qreals List Reals.
From Verif.Model Require Import Num Train MetaSmoothers Orthofit.
Import ListNotations.
Local Open Scope R_scope.

(** The polynomial with the coefficients [c], constant term first. *)
Fixpoint poly (c : list R) (x : R) : R := match c with [] => 0 | a :: r => a + x * poly r x end.

(** Weighted squared error of a function. *)
Definition squared_error (pts : list point) (f : R -> R) : R :=
  sumR (map (fun p => p_w p * (p_y p - f (p_x p)) ^ 2) pts).

(** Positive weights and distinct abscissae. *)
Definition proper (pts : list point) : Prop :=
  pts <> [] /\ NoDup (map p_x pts) /\ forall p, In p pts -> 0 < p_w p.

(** [c] is the least-squares polynomial with at most [m] coefficients. *)
Definition least_squares (pts : list point) (m : nat) (c : list R) : Prop :=
  length c = m /\
  forall c', length c' = m ->
    squared_error pts (poly c) <= squared_error pts (poly c') /\
    (squared_error pts (poly c') <= squared_error pts (poly c) -> forall x, poly c' x = poly c x).

(** [E m] is the smallest error reached with [m] coefficients, for all [m] up to [top]. *)
Definition smallest_errors (pts : list point) (top : nat) (E : nat -> R) : Prop :=
  forall m, (1 <= m <= top)%nat -> exists c, least_squares pts m c /\ E m = squared_error pts (poly c).

(** Strikes against the [j]-th coefficient: the error falls by less than 3.84
    through it, or by less than 6 through the last two. *)
Definition strikes (E : nat -> R) (j : nat) : nat :=
  (if Rlt_dec (E (j - 1)%nat - E j) (384 / 100) then 1 else 0) + (if Rlt_dec (E (j - 2)%nat - E j) 6 then 1 else 0).
(** Strikes against the coefficients 3 to [m]. *)
Definition total_strikes (E : nat -> R) (m : nat) : nat := list_sum (map (strikes E) (seq 3 (m - 2))).

(** [m] coefficients suffice for [n] points: the error is below the number of
    degrees of freedom, or there were four strikes. *)
Definition enough (E : nat -> R) (n m : nat) : Prop :=
  E m < INR n - INR m \/ (4 <= total_strikes E m)%nat.

(** The number of coefficients: the first from 3 on that suffices, at most [top]; if
    this is the number of points, a fifth of it (at least 2, at most 21), or 1 for
    one or two points. *)
Definition first_enough (E : nat -> R) (n top s : nat) : Prop :=
  (top < 3 /\ s = top \/
   3 <= s <= top /\ (forall j, 3 <= j < s -> ~ enough E n j) /\ (s = top \/ enough E n s))%nat.
Definition used_coefficients (n s : nat) : nat :=
  if Nat.eqb s n then if Nat.leb n 2 then 1 else Nat.max 2 (Nat.min 21 (n / 5)) else s.

(** Training rows with a finite coordinate and positive uncertainty as points,
    weighted with the inverse squared uncertainty. *)
Definition coordinate (r : srow) : R := match r_x r with Fin q :: _ => Q2R q | _ => 0 end.
Definition points_of (X : list srow) (y : list R) : list point :=
  map2 (fun r v => {| p_x := coordinate r; p_y := v; p_w := / (r_u r) ^ 2 |}) X y.
Definition usable_rows (X : list srow) : Prop :=
  X <> [] /\ NoDup (map coordinate X) /\ forall r, In r X -> (exists q rest, r_x r = Fin q :: rest) /\ 0 < r_u r.
(** Smallest and largest coordinate. *)
Definition coordinate_range (X : list srow) (lo hi : R) : Prop :=
  (forall r, In r X -> lo <= coordinate r <= hi) /\ In lo (map coordinate X) /\ In hi (map coordinate X).
