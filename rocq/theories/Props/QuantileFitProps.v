(** C112-C114: fits of distributions to quantiles. *)
From Coq Require Import List Bool Reals Sorted.
From Verif.Model Require Import Train Qpd QuantileFit.
From Verif.Spec Require Import RegularizeSpec QpdSpec QuantileFitSpec.
From Verif.Proofs Require Import QuantileFitFacts QuantileFitExamples.
Import ListNotations.
Local Open Scope R_scope.

(** ** C112 *)
(** The full property: the distribution with the fitted shape is at least as close to the
    quantiles of the observations as those with the shapes 0 and 1. Missing: observations
    with ties among the three quantiles, see below. [construct] is a new distribution with
    the given shape. *)
Theorem C112_shape_partial : forall sort mquantiles minimize alpha l u b y s into back,
  transformations b l u = Some (into, back) ->
  fit_sinhlogistic_shape sort mquantiles minimize alpha l u b y = Shape s ->
  exists t, sample_triplet sort alpha y = Some t /\
  let distance := fun shape => mean_distance (object_ppf (construct into back alpha t shape)) per_mille (mquantiles y per_mille) in
  forall j, fit_extended into t = Extended j -> not_worse minimize distance ->
    exists v v0 v1, distance s = Some v /\ distance 0 = Some v0 /\ distance 1 = Some v1 /\ v <= v0 /\ v <= v1.
Proof. exact shape_best. Qed.
Print Assumptions C112_shape_partial.
(** The shape does not move the three quantiles. *)
Theorem C112_three_quantiles : forall into back alpha t s s' p, 0 < alpha < 1 / 2 -> In p [alpha; 1 / 2; 1 - alpha] ->
  object_ppf (construct into back alpha t s) p = object_ppf (construct into back alpha t s') p.
Proof. exact shape_keeps_triplet. Qed.
Print Assumptions C112_three_quantiles.
(** Only an unknown kind of bound is refused. *)
Theorem C112_refused : forall sort mquantiles minimize alpha l u b y, sorts_values sort -> 0 <= alpha <= 1 / 2 -> y <> [] ->
  (fit_sinhlogistic_shape sort mquantiles minimize alpha l u b y = Refused <-> b = OtherBound).
Proof. exact shape_refused. Qed.
Print Assumptions C112_refused.
Example c112_case : exists s t j, sorts_values value_sort /\
  fit_sinhlogistic_shape value_sort (fun _ p => p) two_trials (1 / 4) 0 1 Unbounded skewed = Shape s /\
  sample_triplet value_sort (1 / 4) skewed = Some t /\ fit_extended into_u t = Extended j /\ (forall f, not_worse two_trials f).
Proof. exact skewed_fit. Qed.
(** If the lower quantile and the median of the observations agree, no shape has a distance
    to them that is a number. *)
Theorem C112_ties_refuted : exists alpha y, 0 < alpha < 1 / 2 /\ y <> [] /\ forall sort (mquantiles : list R -> list R -> list R),
  sorts_values sort -> (forall y p, length (mquantiles y p) = length p) ->
  exists t, sample_triplet sort alpha y = Some t /\ qv_low t <= qv_median t < qv_high t /\
    forall shape, mean_distance (object_ppf (construct into_u back_u alpha t shape)) per_mille (mquantiles y per_mille) = None.
Proof. exact shape_ties. Qed.
Print Assumptions C112_ties_refuted.

(** ** C113 *)
(** Increasing quantile values: the fitted Gaussian is increasing and the only one with
    the least squared deviation, for the quantile function and the cdf alike. *)
Theorem C113_gaussian : forall curve_fit norm qs vs, base_distribution norm -> probabilities qs -> length vs = length qs ->
  two_different qs -> increasing_with qs vs -> finds_closest curve_fit (gaussian_curve norm) qs vs ->
  exists mu sigma f g, 0 < sigma /\
    quantile_fit_gaussian curve_fit norm qs vs Ppf = Quantiles f /\ (forall p, 0 < p < 1 -> f p = Some (mu + sigma * d_ppf norm p)) /\
    quantile_fit_gaussian curve_fit norm qs vs Cdf = Probabilities g /\ (forall x, g x = Some (d_cdf norm ((x - mu) / sigma))) /\
    let error := squared_error (map (d_ppf norm) qs) vs (map (fun _ => 1) qs) in
    forall mu' sigma', error mu sigma <= error mu' sigma' /\ (error mu' sigma' = error mu sigma -> mu' = mu /\ sigma' = sigma).
Proof. exact gaussian_fit. Qed.
Print Assumptions C113_gaussian.
(** Quantiles of a Gaussian give back that Gaussian. *)
Theorem C113_gaussian_recovered : forall curve_fit norm qs mu sigma, base_distribution norm -> probabilities qs -> two_different qs -> 0 < sigma ->
  let vs := map (fun q => mu + sigma * d_ppf norm q) qs in
  finds_closest curve_fit (gaussian_curve norm) qs vs ->
  quantile_fit_gaussian curve_fit norm qs vs Ppf = Quantiles (z_ppf (gaussian norm mu sigma)) /\
  quantile_fit_gaussian curve_fit norm qs vs Cdf = Probabilities (z_cdf (gaussian norm mu sigma)).
Proof. exact gaussian_recovered. Qed.
Print Assumptions C113_gaussian_recovered.
Example c113_line : base_distribution logistic /\ probabilities line_quantiles /\ length line_values = length line_quantiles /\
  two_different line_quantiles /\ increasing_with line_quantiles line_values /\
  finds_closest (fun _ _ _ => (1, 2)) (gaussian_curve logistic) line_quantiles line_values.
Proof. exact line_case. Qed.
(** Quantiles of a gamma distribution, and of a negative binomial distribution, lie on
    the fitted curve. *)
Theorem C113_gamma_reproduced : forall curve_fit std qs vs alpha beta, on_curve (gamma_curve std) alpha beta qs vs ->
  finds_closest curve_fit (gamma_curve std) qs vs ->
  exists f, quantile_fit_gamma curve_fit std qs vs Ppf = Quantiles f /\ map f qs = map Some vs.
Proof. exact gamma_reproduced. Qed.
Print Assumptions C113_gamma_reproduced.
Example c113_exponential : let qs := [1 / 2; 3 / 4] in let vs := [2 * - ln (1 - 1 / 2); 2 * - ln (1 - 3 / 4)] in
  on_curve (gamma_curve exponential) 1 (1 / 2) qs vs /\ finds_closest (fun _ _ _ => (1, 1 / 2)) (gamma_curve exponential) qs vs.
Proof. exact exponential_case. Qed.
Theorem C113_nbinom_reproduced : forall curve_fit std qs vs mu var, on_curve (nbinom_curve std) mu var vs qs ->
  finds_closest curve_fit (nbinom_curve std) vs qs ->
  exists f, quantile_fit_nbinom curve_fit std qs vs Cdf = Probabilities f /\ map f vs = map Some qs.
Proof. exact nbinom_reproduced. Qed.
Print Assumptions C113_nbinom_reproduced.
Example c113_geometric : let qs := [1 / 2; 3 / 4] in let vs := [0; 1] in
  on_curve (nbinom_curve geometric) 1 2 vs qs /\ finds_closest (fun _ _ _ => (1, 2)) (nbinom_curve geometric) vs qs.
Proof. exact geometric_case. Qed.
(** The negative binomial distribution has the fitted mean and variance; without
    overdispersion there is none. *)
Theorem C113_nbinom_moments : forall mu var, 0 < mu < var ->
  0 < nbinom_n mu var /\ 0 < nbinom_p mu var < 1 /\
  nbinom_n mu var * (1 - nbinom_p mu var) / nbinom_p mu var = mu /\
  nbinom_n mu var * (1 - nbinom_p mu var) / nbinom_p mu var ^ 2 = var.
Proof. exact nbinom_moments. Qed.
Print Assumptions C113_nbinom_moments.
Theorem C113_nbinom_invalid : forall std mu var, 0 < var <= mu -> nbinom_dist std mu var = invalid.
Proof. exact nbinom_invalid. Qed.
Print Assumptions C113_nbinom_invalid.
(** The three modes return quantile function, distribution and cdf of one and the same
    fitted distribution, for a Gaussian inverse to each other; another mode is refused. *)
Theorem C113_modes : forall curve_fit norm gam nb qs vs, exists g1 g2 g3, forall m,
  quantile_fit_gaussian curve_fit norm qs vs m = returned m g1 /\ quantile_fit_gamma curve_fit gam qs vs m = returned m g2 /\
  quantile_fit_nbinom curve_fit nb qs vs m = returned m g3.
Proof. exact fit_modes. Qed.
Print Assumptions C113_modes.
Theorem C113_inverse : forall d loc scale p, base_distribution d -> 0 < p < 1 -> 0 < scale ->
  exists v, z_ppf (located d loc scale) p = Some v /\ z_cdf (located d loc scale) v = Some p.
Proof. exact located_inverse. Qed.
Print Assumptions C113_inverse.
(** Equal quantile values: every Gaussian is beaten by a narrower one. *)
Theorem C113_constant_refuted : forall norm qs c, base_distribution norm -> probabilities qs -> two_different qs ->
  ~ exists mu sigma, closest (gaussian_curve norm) qs (map (fun _ => c) qs) mu sigma.
Proof. exact gaussian_constant. Qed.
Print Assumptions C113_constant_refuted.

(** ** C114 *)
(** The full property: the curve passes through the given quantiles, is constant outside of
    [0, 1] and does not decrease if the given values do not. Missing: the last part, which
    is refuted. *)
Theorem C114_points_partial : forall spline qs vs, passes_through (spline qs vs) qs vs -> (forall q, In q qs -> 0 <= q <= 1) ->
  passes_through (quantile_fit_spline spline qs vs) qs vs /\
  (forall x, x <= 0 -> quantile_fit_spline spline qs vs x = quantile_fit_spline spline qs vs 0) /\
  (forall x, 1 <= x -> quantile_fit_spline spline qs vs x = quantile_fit_spline spline qs vs 1).
Proof. exact spline_points. Qed.
Print Assumptions C114_points_partial.
Example c114_straight : let qs := [1 / 5; 2 / 5; 3 / 5; 4 / 5] in
  passes_through (fun x => 3 * x) qs (map (fun q => 3 * q) qs) /\ cubic_on_unit (fun x => 3 * x) /\ (forall q, In q qs -> 0 <= q <= 1).
Proof. exact straight_case. Qed.
Theorem C114_decreasing_refuted : exists qs vs, StronglySorted Rlt qs /\ probabilities qs /\ StronglySorted Rlt vs /\
  forall spline, cubic_on_unit (spline qs vs) -> passes_through (spline qs vs) qs vs ->
  exists p p', 0 < p < p' /\ p' < 1 /\ quantile_fit_spline spline qs vs p' < quantile_fit_spline spline qs vs p.
Proof. exact spline_decreases. Qed.
Print Assumptions C114_decreasing_refuted.
