(** Splines, and what scipy documents about its fits. *)
From Coq Require Import List Sorted Reals.
From Verif.Model Require Import Train LsqSpline.
Import ListNotations.
Local Open Scope R_scope.

(** Splines of degree [k]: a polynomial plus a multiple of (x - t)^k to the right of every
    knot t. *)
Definition beyond (k : nat) (t x : R) : R := if Rle_dec t x then (x - t) ^ k else 0.
Definition spline_of (k : nat) (knots powers jumps : list R) (x : R) : R :=
  sumR (map2 (fun i a => a * x ^ i) (seq 0 (S k)) powers) + sumR (map2 (fun t c => c * beyond k t x) knots jumps).
Definition is_spline (k : nat) (knots : list R) (s : R -> R) : Prop :=
  exists powers jumps, length powers = S k /\ length jumps = length knots /\ forall x, s x = spline_of k knots powers jumps x.

(** Sum of the squared deviations of [y], each bin with the [share] of its weight. *)
Fixpoint deviations (share : R -> R) (X : spline_bins) (y : list R) (s : R -> R) : R :=
  match X, y with
  | (x, w) :: X, v :: y => share w * (v - s x) ^ 2 + deviations share X y s
  | _, _ => 0
  end.
(** Every bin counts as much as its weight. *)
Definition by_weight (w : R) : R := w.
(** Deviations are multiplied by the weights before they are squared. *)
Definition squared_weight (w : R) : R := (w ^ 2).

(** The documentation of scipy: the fitted spline minimises the sum of the squares of
    w * (y - s(x)) among the splines with these knots, which are distinct and in order ... *)
Definition follows_lsq (lsq_spline : list R -> list R -> list R -> list R -> nat -> option (R -> R)) : Prop :=
  forall X y knots k s, StronglySorted Rlt knots -> lsq_spline (map fst X) y knots (map snd X) k = Some s ->
    is_spline k knots s /\
    forall s', is_spline k knots s' -> deviations squared_weight X y s <= deviations squared_weight X y s'.
(** ... and that of a smoothing spline is at most the smoothing factor, by default the
    number of weights. *)
Definition smoothing_factor (s : option R) (X : spline_bins) : R := match s with Some s => s | None => INR (length X) end.
Definition follows_univariate (univariate_spline : list R -> list R -> list R -> nat -> option R -> option (R -> R)) : Prop :=
  forall X y k s f, univariate_spline (map fst X) y (map snd X) k s = Some f ->
    deviations squared_weight X y f <= smoothing_factor s X.
