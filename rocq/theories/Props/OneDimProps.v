(** C62-C64: one-dimensional smoothers. *)
From Coq Require Import ZArith QArith Qreals List Bool Reals.
From Verif.Model Require Import Num LexBins Train MetaSmoothers Orthofit OneDim.
From Verif.Spec Require Import LexSpec MetaSpec OrthoSpec SeasonSpec.
From Verif.Proofs Require Import MetaExamples OrthoFacts OrthoDegree OneDimFacts.
Import ListNotations.
Local Open Scope R_scope.

(** ** C62 *)
(** The period is the number of training bins. *)
Theorem C62_periodic : forall order cf off fb X y st x, X <> [] -> seasonal_fit cf off X y = Some st ->
  seasonal_predict (seasonality order) fb st (x + inject_Z (Z.of_nat (length X))) = seasonal_predict (seasonality order) fb st x.
Proof. exact seasonal_periodic. Qed.
Print Assumptions C62_periodic.

(** With the offset set to zero the predictions of the bins of one period add up to zero. *)
Theorem C62_zero_mean : forall order cf fb X y st, (1 <= order <= 3)%nat -> fits_curve order cf ->
  seasonal_fit cf true X y = Some st -> params st <> None ->
  exists f, (forall j, seasonal_predict (seasonality order) fb st (inject_Z (Z.of_nat j)) = Some (f j)) /\
    sumR (map f (seq 0 (length X))) = 0.
Proof. exact season_zero_mean. Qed.
Print Assumptions C62_zero_mean.

(** Targets on a seasonal curve are reproduced at their bins. *)
Theorem C62_reproduces : forall order cf fb X y st par, (1 <= order <= 3)%nat -> fits_curve order cf ->
  length X = length y -> (forall r, In r X -> 0 < r_u r) -> length par = (2 * order + 1)%nat ->
  (forall i r v, nth_error X i = Some r -> nth_error y i = Some v ->
     v = season_curve par (2 * PI * Q2R (first_coordinate (r_x r)) / INR (length X))) ->
  seasonal_fit cf false X y = Some st -> params st <> None ->
  forall i r v, nth_error X i = Some r -> nth_error y i = Some v ->
    seasonal_predict (seasonality order) fb st (first_coordinate (r_x r)) = Some v.
Proof. exact season_training. Qed.
Print Assumptions C62_reproduces.

(** Too few values: the fallback value everywhere. *)
Theorem C62_fallback : forall order cf off fb X y, (forall xs ys sigma, cf xs ys sigma = FitTypeError) ->
  exists st, seasonal_fit cf off X y = Some st /\ forall x, seasonal_predict (seasonality order) fb st x = Some fb.
Proof. exact seasonal_not_converged. Qed.
Print Assumptions C62_fallback.

(** A fit without convergence fails instead of falling back. *)
Theorem C62_no_convergence_refuted : exists cf, forall off X y, seasonal_fit cf off X y = None.
Proof. exact seasonal_runtime_error. Qed.
Print Assumptions C62_no_convergence_refuted.

(** The lasso variant for the n bins 0, ..., n-1 has the period n-1. *)
Theorem C62_lasso_period_refuted : exists X y min_days lasso,
  bins_of [Z.of_nat (length X)] X /\ length X = length y /\
  let st := lasso_fit min_days lasso X y in
  lasso_predict st 0 = lasso_predict st (inject_Z (Z.of_nat (length X - 1))) /\
  lasso_predict st 0 <> lasso_predict st (inject_Z (Z.of_nat (length X))).
Proof. exact lasso_wrong_period. Qed.
Print Assumptions C62_lasso_period_refuted.
Example C62_case : exists X y cf st, fits_curve 1 cf /\ length X = 4%nat /\ length X = length y /\
  bins_of [4%Z] X /\ (forall r, In r X -> 0 < r_u r) /\
  seasonal_fit cf true X y = Some st /\ params st <> None /\
  (forall i r v, nth_error X i = Some r -> nth_error y i = Some v ->
     v = season_curve [0; 1; 0] (2 * PI * Q2R (first_coordinate (r_x r)) / INR (length X))).
Proof. exact ex_season. Qed.

(** ** C63 *)
(** Targets on a polynomial of the fitted degree are reproduced everywhere. *)
Theorem C63_reproduces : forall k X y c c0, usable_rows X -> length X = length y -> (k < length X)%nat ->
  polynomial_fit k X y c -> (length c0 <= S k)%nat ->
  (forall i r v, nth_error X i = Some r -> nth_error y i = Some v -> v = poly c0 (coordinate r)) ->
  forall x, polyval c x = poly c0 x.
Proof. exact polynomial_exact. Qed.
Print Assumptions C63_reproduces.

(** With equal uncertainties the fit is the least-squares polynomial. Missing: other
    uncertainties, see the next theorem. *)
Theorem C63_least_squares_partial : forall k X y c s, usable_rows X -> length X = length y -> (k < length X)%nat ->
  (forall r, In r X -> r_u r = s) -> polynomial_fit k X y c -> least_squares (points_of X y) (S k) (rev c).
Proof. exact equal_uncertainties. Qed.
Print Assumptions C63_least_squares_partial.

(** Otherwise it is not: the points are weighted with the fourth power of the
    inverse uncertainty. *)
Theorem C63_weights_refuted : exists k X y c, usable_rows X /\ length X = length y /\ (k < length X)%nat /\
  polynomial_fit k X y c /\ ~ least_squares (points_of X y) (S k) (rev c).
Proof. exact not_inverse_variance. Qed.
Print Assumptions C63_weights_refuted.

(** The linear smoother with the fallback never decreases. *)
Theorem C63_monotone : forall X y c x1 x2, linear_fit true X y c -> x1 <= x2 -> polyval c x1 <= polyval c x2.
Proof. exact linear_monotone. Qed.
Print Assumptions C63_monotone.

Theorem C63_linear : forall X y c, (2 <= length X)%nat -> linear_fit false X y c <-> polynomial_fit 1 X y c.
Proof. exact linear_is_polynomial. Qed.
Print Assumptions C63_linear.
Example C63_rows_exist : usable_rows two_rows.
Proof. exact two_usable. Qed.
Example C63_fit_exists : forall k X y, usable_rows X -> length X = length y -> (k < length X)%nat -> exists c, polynomial_fit k X y c.
Proof. exact polynomial_fit_exists. Qed.
Example C63_linear_exists : exists c, linear_fit true two_rows [1; 0] c.
Proof. exact ex_linear. Qed.

(** ** C64 *)
(** [E m] is the smallest error with [m] coefficients. The prediction is the
    least-squares polynomial of the chosen degree, constant outside the range of the
    training coordinates; missing coordinates give no prediction. *)
Theorem C64_least_squares : forall X y rows E, usable_rows X -> length X = length y ->
  smallest_errors (points_of X y) (Nat.min 21 (length X)) E ->
  exists s c lo hi, first_enough E (length X) (Nat.min 21 (length X)) s /\
    least_squares (points_of X y) (used_coefficients (length X) s) c /\ coordinate_range X lo hi /\
    (forall i q rest, nth_error rows i = Some (Fin q :: rest) ->
       nth_error (predict orthogonal_polynomial (fit orthogonal_polynomial X y) rows) i =
       Some (Some (poly c (Rmax lo (Rmin hi (Q2R q)))))) /\
    (forall i rest, nth_error rows i = Some (NaN :: rest) ->
       nth_error (predict orthogonal_polynomial (fit orthogonal_polynomial X y) rows) i = Some None).
Proof. exact smoother_result. Qed.
Print Assumptions C64_least_squares.

(** Smallest errors exist. *)
Theorem C64_errors_exist : forall pts, proper pts -> exists E, smallest_errors pts (Nat.min 21 (length pts)) E.
Proof. exact (fun pts P => ex_intro _ _ (smallest_exists pts P)). Qed.
Print Assumptions C64_errors_exist.

(** Least-squares polynomials reproduce targets on a polynomial. *)
Theorem C64_reproduces : forall pts m c c0, proper pts -> least_squares pts m c -> (length c0 <= m)%nat ->
  (forall p, In p pts -> p_y p = poly c0 (p_x p)) -> forall x, poly c x = poly c0 x.
Proof. exact least_squares_exact. Qed.
Print Assumptions C64_reproduces.

(** Every prefix of the fitted parameters is a least-squares polynomial. *)
Theorem C64_each_degree : forall pts m, proper pts -> (1 <= m <= Nat.min 21 (length pts))%nat ->
  exists c, least_squares pts m c /\ forall x, ortho_apply (fit_orthogonal_poly pts) m x = poly c x.
Proof. exact each_degree. Qed.
Print Assumptions C64_each_degree.
Example C64_rows_exist : usable_rows ex_rows /\ length ex_rows = length [1; 2; 3].
Proof. exact ex_usable. Qed.
Example C64_case : exists E, smallest_errors (points_of ex_rows [1; 2; 3]) (Nat.min 21 (length ex_rows)) E.
Proof. exact ex_errors. Qed.
