(** What fits of distributions to quantiles shall do. *)
From Coq Require Import List Bool Reals Permutation Sorted.
From Verif.Model Require Import Train Qpd QuantileFit.
Import ListNotations.
Local Open Scope R_scope.

(** Contracts of the library functions used by the shape fit: sorting, and a search that
    starts at 0 and 1 and does not end at a worse value. *)
Definition sorts_values (sort : list R -> list R) : Prop :=
  forall y, Permutation (sort y) y /\ StronglySorted Rle (sort y).
Definition not_worse (minimize : (R -> option R) -> option R) (f : R -> option R) : Prop :=
  forall s, minimize f = Some s -> (forall x, f x <> None) ->
  exists v v0 v1, f s = Some v /\ f 0 = Some v0 /\ f 1 = Some v1 /\ v <= v0 /\ v <= v1.

(** Squared deviation of a curve with two parameters from points, parameters with the
    least deviation, and the contract of [curve_fit]: it finds such parameters if there
    are any. *)
Definition deviation (f : R -> R -> R -> option R) (xs ys : list R) (a b : R) : option R :=
  sum_opt (map2 (fun x y => match f x a b with Some v => Some ((y - v) ^ 2) | None => None end) xs ys).
Definition closest (f : R -> R -> R -> option R) (xs ys : list R) (a b : R) : Prop :=
  exists e, deviation f xs ys a b = Some e /\ forall a' b' e', deviation f xs ys a' b' = Some e' -> e <= e'.
Definition finds_closest (curve_fit : (R -> R -> R -> option R) -> list R -> list R -> R * R)
  (f : R -> R -> R -> option R) (xs ys : list R) : Prop :=
  (exists a b, closest f xs ys a b) -> closest f xs ys (fst (curve_fit f xs ys)) (snd (curve_fit f xs ys)).

(** The curves that are fitted. *)
Definition gaussian_curve (norm : dist) (x mu sigma : R) : option R := z_ppf (gaussian norm mu sigma) x.
Definition gamma_curve (std : R -> dist) (x alpha beta : R) : option R := z_ppf (gamma_dist std alpha beta) x.
Definition nbinom_curve (std : R -> R -> dist) (x mu var : R) : option R := z_cdf (nbinom_dist std mu var) x.
Definition on_curve (f : R -> R -> R -> option R) (a b : R) (xs ys : list R) : Prop :=
  map (fun x => f x a b) xs = map Some ys.

(** Probabilities, two of them different; values that increase with them. *)
Definition probabilities (qs : list R) : Prop := forall q, In q qs -> 0 < q < 1.
Definition two_different (qs : list R) : Prop := exists p q, In p qs /\ In q qs /\ p <> q.
Definition increasing_with (qs vs : list R) : Prop :=
  forall i j, (i < length qs)%nat -> (j < length qs)%nat -> nth i qs 0 < nth j qs 0 -> nth i vs 0 < nth j vs 0.

(** A spline that passes through the points, and, for four points, is a cubic
    polynomial. *)
Definition passes_through (f : R -> R) (qs vs : list R) : Prop := map f qs = vs.
Definition cubic_on_unit (f : R -> R) : Prop :=
  exists a b c d, forall x, 0 <= x <= 1 -> f x = a + b * x + c * (x * x) + d * (x * x * x).

(** The probabilities at which quantile functions are compared: 999 steps of one per mille from 1/2000 on. *)
Definition per_mille : list R := map (fun k => (2 * INR k + 1) / 2000) (seq 0 999).
