(** Model of the spline smoothers of smoothing/onedim.py. *)
From Coq Require Import List Bool Arith Reals.
Import ListNotations.
Local Open Scope R_scope.

(** Columns 0 and 1 of X_for_smoother: position and weight of each bin, finite. *)
Definition spline_bins := list (R * R).

(** The fitted attribute: None before the first successful call of fit. *)
Definition spline_state := option (R -> R).
Inductive fit_outcome := Learned | DegreeError | ErrorOfScipy.

(** [LSQUnivariateSpline.fit] (onedim.py:695-709); [lsq_spline] is
    scipy.interpolate.LSQUnivariateSpline of x, y, t, w and k, [None] its ValueError.
    Degrees are not negative. An error leaves the attribute as it was. *)
Section Lsq.
Variable lsq_spline : list R -> list R -> list R -> list R -> nat -> option (R -> R).
Definition lsq_fit (interior_knots : list R) (degree : nat) (st : spline_state) (X : spline_bins) (y : list R)
  : spline_state * fit_outcome :=
  let check_spline_degree := Nat.leb degree 5 && Nat.ltb degree (length X) in
  if check_spline_degree then
    match lsq_spline (map fst X) y interior_knots (map snd X) degree with
    | Some s => (Some s, Learned)
    | None => (st, ErrorOfScipy)
    end
  else (st, DegreeError).
End Lsq.

(** [LSQUnivariateSpline.predict] (onedim.py:711-714) and
    [UnivariateSplineSmoother.predict] (onedim.py:570-573); [None] is the ValueError. *)
Definition spline_predict (st : spline_state) (x : list R) : option (list R) :=
  match st with
  | None => None
  | Some s => Some (map s x)
  end.

(** [UnivariateSplineSmoother.fit] (onedim.py:559-568); [univariate_spline] is
    scipy.interpolate.UnivariateSpline of x, y, w, k and s, [None] its ValueError. *)
Section Univariate.
Variable univariate_spline : list R -> list R -> list R -> nat -> option R -> option (R -> R).
Definition univariate_fit (k : nat) (s : option R) (st : spline_state) (X : spline_bins) (y : list R)
  : spline_state * fit_outcome :=
  match univariate_spline (map fst X) y (map snd X) k s with
  | Some f => (Some f, Learned)
  | None => (st, ErrorOfScipy)
  end.
End Univariate.
