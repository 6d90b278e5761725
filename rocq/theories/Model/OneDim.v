(** Model of the seasonal and polynomial smoothers of smoothing/onedim.py; the rows
    have finite coordinates. *)
From Coq Require Import ZArith QArith Qreals List Bool Reals.
From Verif.Model Require Import Num Train MetaSmoothers Orthofit.
Import ListNotations.
Local Open Scope R_scope.

(** [_choose_default_fit_function] and the three functions (onedim.py:267-299);
    [None]: ValueError for other orders, TypeError for a wrong number of parameters. *)
Definition seasonality (order : nat) (x : R) (par : list R) : option R :=
  match order, par with
  | 1%nat, [c; s1; c1] => Some (c + s1 * sin x + c1 * cos x)
  | 2%nat, [c; s1; c1; s2; c2] => Some (c + s1 * sin x + c1 * cos x + s2 * sin (2 * x) + c2 * cos (2 * x))
  | 3%nat, [c; s1; c1; s2; c2; s3; c3] =>
      Some (c + s1 * sin x + c1 * cos x + s2 * sin (2 * x) + c2 * cos (2 * x) + s3 * sin (3 * x) + c3 * cos (3 * x))
  | _, _ => None
  end.

(** Outcome of scipy.optimize.curve_fit: parameters, TypeError (fewer values than
    parameters), or RuntimeError (no convergence). *)
Inductive curve_outcome := Fitted (par : list R) | FitTypeError | FitRuntimeError.

(** [SeasonalSmoother] (onedim.py:372-396); [None] is the uncaught RuntimeError. *)
Record seasonal_state := { frequency : R; params : option (list R) }.
Definition transform_X (frequency : R) (x : Q) : R := 2 * PI * Q2R x * frequency.
Section Seasonal.
Variables (fit_function : R -> list R -> option R)
          (curve_fit : list R -> list R -> list R -> curve_outcome)
          (offset_tozero : bool) (fallback_value : R).
Definition set_first (l : list R) (v : R) : list R := match l with _ :: r => v :: r | [] => [] end.
Definition seasonal_fit (X : list srow) (y : list R) : option seasonal_state :=
  let frequency := 1 / INR (length X) in
  let xdata := map (fun r => transform_X frequency (first_coordinate (r_x r))) X in
  match curve_fit xdata y (map r_u X) with
  | Fitted par => Some {| frequency := frequency; params := Some (if offset_tozero then set_first par 0 else par) |}
  | FitTypeError => Some {| frequency := frequency; params := None |}
  | FitRuntimeError => None
  end.
Definition seasonal_predict (st : seasonal_state) (x : Q) : option R :=
  match params st with
  | Some par => fit_function (transform_X (frequency st) x) par
  | None => Some (1 * fallback_value)
  end.
End Seasonal.

(** [SeasonalLassoSmoother] (onedim.py:438-473); [lasso] are the coefficients of the
    fitted LassoLarsIC for the given features and targets. *)
Section Lasso.
Variables (min_days : nat) (lasso : list (list R) -> list R -> list R).
Definition prepare_X (max_bin : Q) (x : Q) : list R :=
  let x1 := 2 * PI * Q2R x / Q2R max_bin in [sin x1; cos x1; - sin x1; - cos x1].
Definition lasso_fit (X : list srow) (y : list R) : Q * option (list R) :=
  let max_bin := first_coordinate (r_x (last X {| r_x := []; r_w := 0; r_u := 0 |})) in
  let days := map (fun r => negb (Qle_bool (r_w r) 0)) X in
  let Xd := select days X in
  let yd := select days y in
  (max_bin,
   if Nat.ltb (length yd) min_days then None
   else Some (lasso (map (fun r => prepare_X max_bin (first_coordinate (r_x r))) Xd) yd)).
Definition lasso_predict (st : Q * option (list R)) (x : Q) : R :=
  match snd st with
  | Some coef => sumR (map2 Rmult coef (prepare_X (fst st) x))
  | None => 0
  end.
End Lasso.

(** numpy.polyval: Horner's scheme, highest coefficient first. *)
Definition polyval (c : list R) (x : R) : R := fold_left (fun acc a => acc * x + a) c 0.

(** numpy.polyfit with weights, by its documented contract: the coefficients
    minimise the sum of the squares of w * residual. *)
Definition polyfit_error (xs ys w c : list R) : R :=
  sumR (map2 (fun x yw => (snd yw * (fst yw - polyval c x)) ^ 2) xs (combine ys w)).
Definition polyfit (xs ys w : list R) (deg : nat) (c : list R) : Prop :=
  length c = S deg /\ forall c', length c' = S deg -> polyfit_error xs ys w c <= polyfit_error xs ys w c'.

(** [PolynomialSmoother] (onedim.py:608-623). *)
Definition fit_weights (X : list srow) : list R := map (fun r => 1 / (r_u r * r_u r)) X.
Definition fit_abscissae (X : list srow) : list R := map (fun r => Q2R (first_coordinate (r_x r))) X.
Definition polynomial_fit (k : nat) (X : list srow) (y : list R) (c : list R) : Prop :=
  polyfit (fit_abscissae X) y (fit_weights X) k c.
(** [LinearSmoother] (onedim.py:654-672). *)
Definition linear_fit (fallback_when_negative_slope : bool) (X : list srow) (y : list R) (c : list R) : Prop :=
  let deg := if Nat.leb (length X) 1 then 0%nat else 1%nat in
  exists c1, polyfit (fit_abscissae X) y (fit_weights X) deg c1 /\
    if fallback_when_negative_slope && Rltb (hd 0 c1) 0
    then polyfit (fit_abscissae X) y (fit_weights X) 0 c
    else c = c1.
