(** C29-C32, C53-C55: bin estimates of the regressors and the classifier. *)
From Coq Require Import List Bool Reals.
From Verif.Model Require Import Num LexBins Train Predict Link Estimators.
From Verif.Spec Require Import TrainSpec PredictSpec LinkSpec EstimatorSpec.
From Verif.Proofs Require Import TrainExamples EstimatorFacts ClassifierFacts LocationFacts CentredFacts EstimatorExamples.
Import ListNotations.
Local Open Scope R_scope.

(** ** C29 *)
Theorem C29_poisson_is_nbinom : forall gamma_median lex n y w s,
  per_row lex y -> per_row lex w -> per_row lex s ->
  nbinom_parameters gamma_median 1 0 lex n y w s =
  poisson_parameters gamma_median (poisson_precalc lex n y w) lex n w s.
Proof. exact poisson_is_nbinom. Qed.
Print Assumptions C29_poisson_is_nbinom.

Example c29_example :
  fst (nbinom_parameters (fun a => a) 1 0 e_lex 3 e_y e_w e_s) =
  [ln (7 / (167834 / 100000 + 3 / 2)); ln (2 / (167834 / 100000)); ln (2 / (167834 / 100000 + 1))] /\
  per_row e_lex e_y /\ per_row e_lex e_w /\ per_row e_lex e_s /\ nonneg e_y /\ nonneg e_w.
Proof. exact (conj ex_c29 e_rows). Qed.

(** ** C30 *)
(** The posterior is Gamma(alpha, beta); its median is used unless a parameter
    exceeds 1e12. [s] are the predictions in link space. *)
Theorem C30_estimates_well_defined : forall gamma_median, (forall a, 0 < a -> 0 < gamma_median a) ->
  forall a c lex n y w s k,
  0 < a -> 0 <= c -> per_row lex y -> per_row lex w -> per_row lex s -> nonneg y -> nonneg w -> (k < n)%nat ->
  exists alpha beta estimate uncertainty,
    alpha = 2 + bin_sum lex (fun j => at_row w j * at_row y j / (a + c * exp (at_row s j))) k /\
    beta = 167834 / 100000 + bin_sum lex (fun j => at_row w j * exp (at_row s j) / (a + c * exp (at_row s j))) k /\
    2 <= alpha /\ 167834 / 100000 <= beta /\
    (estimate = gamma_median alpha / beta \/ estimate = alpha / beta /\ 1000000000000 < Rmax alpha beta) /\ 0 < estimate /\
    nth_error (fst (nbinom_parameters gamma_median a c lex n y w s)) k = Some (ln estimate) /\
    nth_error (snd (nbinom_parameters gamma_median a c lex n y w s)) k = Some uncertainty /\
    0 < uncertainty /\ uncertainty ^ 2 = ln (1 + 1 / alpha) /\
    ((forall j, ~ row_in lex k j) -> alpha = 2 /\ beta = 167834 / 100000).
Proof. exact nbinom_well_defined. Qed.
Print Assumptions C30_estimates_well_defined.

(** Further rows do not increase the uncertainty. *)
Theorem C30_more_evidence : forall gamma_median a c lex n y w s lex' y' w' s' k u u',
  0 < a -> 0 <= c -> per_row lex y -> per_row lex w -> per_row lex s ->
  per_row lex' y' -> per_row lex' w' -> per_row lex' s' ->
  nonneg y -> nonneg w -> nonneg y' -> nonneg w' -> (k < n)%nat ->
  nth_error (snd (nbinom_parameters gamma_median a c lex n y w s)) k = Some u ->
  nth_error (snd (nbinom_parameters gamma_median a c (lex ++ lex') n (y ++ y') (w ++ w') (s ++ s'))) k = Some u' ->
  u' <= u.
Proof. exact more_evidence. Qed.
Print Assumptions C30_more_evidence.

Example c30_empty_bin : forall j, ~ row_in e_lex 1 j.
Proof. exact ex_c30_empty. Qed.

(** ** C31 *)
(** [ext] are the external weights in the variance of the estimate. *)
Theorem C31_minimises_chi_square : forall lex w x ext n x0 w0 k,
  per_row lex w -> per_row lex x -> per_row lex ext -> nonneg w -> nonneg ext -> 0 < w0 -> (k < n)%nat ->
  exists m u, nth_error (calc_factors_generic lex (map2 Rmult w x) w ext n x0 w0) k = Some (Some (m, u)) /\
    (forall m', chi_square lex w x x0 w0 k m <= chi_square lex w x x0 w0 k m') /\
    (forall m', chi_square lex w x x0 w0 k m' = chi_square lex w x x0 w0 k m -> m' = m) /\
    (forall lo hi, lo <= x0 <= hi -> (forall j, row_in lex k j -> lo <= at_row x j <= hi) -> lo <= m <= hi) /\
    0 < u /\
    u ^ 2 = (w0 + bin_sum lex (fun j => at_row ext j * at_row w j) k) / (w0 + bin_sum lex (at_row w) k) ^ 2 /\
    ((forall j, ~ row_in lex k j) -> m = x0 /\ u ^ 2 = 1 / w0).
Proof. exact generic_bin. Qed.
Print Assumptions C31_minimises_chi_square.

Example c31_example : nth_error (calc_factors_generic e_lex (map2 Rmult e_w e_y) e_w [1; 1; 1] 3 0 (1/2)) 0 =
  Some (Some (5/2, sqrt (1/2))).
Proof. exact ex_c31. Qed.

(** ** C32 *)
(** [n] is the number of the missing bin. Calibration shifts all bins (all but the
    missing bin, if that is not learned) by the same amount. *)
Theorem C32_calibrated_mean_zero : forall (mnl : bool) lex w n f,
  per_row lex w -> (forall b, In b lex -> (b <= n)%nat) -> length f = S n ->
  (if mnl then sumR (map2 (fun b wj => if Nat.eqb b n then 0 else wj) lex w) else sumR w) <> 0 ->
  let f' := calibrate mnl (bincounts lex w (S n)) f in
  length f' = S n /\
  sumR (map2 (fun b wj => wj * nth b f' 0) lex w) = 0 /\
  (mnl = true -> nth n f' 0 = 0) /\
  (forall i j, (i <= n)%nat -> (j <= n)%nat -> (mnl = true -> i <> n /\ j <> n) ->
     nth i f' 0 - nth j f' 0 = nth i f 0 - nth j f 0).
Proof. exact calibrate_zero. Qed.
Print Assumptions C32_calibrated_mean_zero.

Example c32_example : calibrate true (bincounts e_lex e_w 3) [1; 2; 5] = [0; 1; 0] /\
  calibrate false (bincounts e_lex e_w 3) [1; 2; 5] = [-8/5; -3/5; 12/5].
Proof. exact ex_c32. Qed.

(** ** C53 *)
(** [ppf a b] is the quantile function of the Beta(a, b) distribution. *)
Theorem C53_classifier_estimates : forall ppf erfinv,
  (forall a b q, 0 < a -> 0 < b -> 0 < q < 1 -> 0 < ppf a b q < 1) ->
  (forall a b q q', 0 < a -> 0 < b -> 0 < q -> q < q' -> q' < 1 -> ppf a b q < ppf a b q') ->
  (forall t t', -1 < t -> t < t' -> t' < 1 -> erfinv t < erfinv t') ->
  forall lex n y w s k, per_row lex y -> per_row lex w -> per_row lex s -> nonneg w ->
  (forall x, In x y -> x = 0 \/ x = 1) -> (k < n)%nat ->
  exists alpha beta hi lo mu sigma,
    alpha = 1001 / 1000 + bin_sum lex (fun j => at_row w j * Rabs (at_row y j - unlink_func Logit (at_row s j)) * at_row y j) k /\
    beta = 1001 / 1000 + bin_sum lex (fun j => at_row w j * Rabs (at_row y j - unlink_func Logit (at_row s j)) * (1 - at_row y j)) k /\
    1 < alpha /\ 1 < beta /\ 5 / 100 < lo /\ hi < 95 / 100 /\ hi = lo + 1 / 2 /\
    (alpha = beta -> lo = 1 / 4) /\ (beta < alpha -> lo < 1 / 4) /\ (alpha < beta -> 1 / 4 < lo) /\
    nth_error (classifier_parameters ppf erfinv lex n y w s) k = Some (Some (mu, sigma)) /\ 0 < sigma /\
    unlink_func Logit (mu + sigma * (sqrt 2 * erfinv (2 * hi - 1))) = ppf alpha beta hi /\
    unlink_func Logit (mu + sigma * (sqrt 2 * erfinv (2 * lo - 1))) = ppf alpha beta lo.
Proof. exact classifier_estimates. Qed.
Print Assumptions C53_classifier_estimates.

(** A bin without rows is neutral. *)
Theorem C53_empty_bin_neutral : forall ppf erfinv,
  (forall a b q, 0 < a -> 0 < b -> 0 < q < 1 -> 0 < ppf a b q < 1) ->
  (forall a b q q', 0 < a -> 0 < b -> 0 < q -> q < q' -> q' < 1 -> ppf a b q < ppf a b q') ->
  (forall t t', -1 < t -> t < t' -> t' < 1 -> erfinv t < erfinv t') ->
  (forall a q, 0 < a -> 0 < q < 1 -> ppf a a (1 - q) = 1 - ppf a a q) ->
  (forall t, -1 < t < 1 -> erfinv (- t) = - erfinv t) ->
  forall lex n y w s k, per_row lex y -> per_row lex w -> per_row lex s -> nonneg w ->
  (forall x, In x y -> x = 0 \/ x = 1) -> (k < n)%nat -> (forall j, ~ row_in lex k j) ->
  exists sigma, nth_error (classifier_parameters ppf erfinv lex n y w s) k = Some (Some (0, sigma)).
Proof. exact classifier_empty_bin. Qed.
Print Assumptions C53_empty_bin_neutral.

(** Functions with the assumed properties, and data. *)
Example c53_oracles : (forall a b q : R, 0 < a -> 0 < b -> 0 < q < 1 -> 0 < (fun _ _ q : R => q) a b q < 1) /\
  (forall a b q q', 0 < a -> 0 < b -> 0 < q -> q < q' -> q' < 1 -> (fun _ _ q : R => q) a b q < (fun _ _ q : R => q) a b q') /\
  (forall t t', -1 < t -> t < t' -> t' < 1 -> (fun t : R => t) t < (fun t : R => t) t') /\
  (forall a q, 0 < a -> 0 < q < 1 -> (fun _ _ q : R => q) a a (1 - q) = 1 - (fun _ _ q : R => q) a a q) /\
  (forall t, -1 < t < 1 -> (fun t : R => t) (- t) = - (fun t : R => t) t).
Proof. exact e_oracles. Qed.
Example c53_data : forall x, In x e_c -> x = 0 \/ x = 1.
Proof. exact e_class. Qed.

(** ** C54 *)
(** Holds unless all rows of a non-empty bin have weight zero. *)
Theorem C54_location_estimates_partial : forall lex n y w s k,
  per_row lex y -> per_row lex w -> per_row lex s -> nonneg w -> sumR w <> 0 -> (k < n)%nat ->
  ((exists j, row_in lex k j) -> 0 < bin_sum lex (at_row w) k) ->
  exists v m u, 0 < v /\
    nth_error (location_parameters lex n y w s) k = Some (Some (m, u)) /\
    let w' := map (fun x => x / v) w in
    let residuals := map2 Rminus y s in
    (forall m', chi_square lex w' residuals 0 (1 / 100) k m <= chi_square lex w' residuals 0 (1 / 100) k m') /\
    (forall m', chi_square lex w' residuals 0 (1 / 100) k m' = chi_square lex w' residuals 0 (1 / 100) k m -> m' = m) /\
    (forall b, 0 <= b -> (forall j, row_in lex k j -> Rabs (at_row y j - at_row s j) <= b) -> Rabs m <= b) /\
    0 < u /\ ((forall j, ~ row_in lex k j) -> m = 0 /\ u = 10).
Proof. exact location_bin. Qed.
Print Assumptions C54_location_estimates_partial.

Theorem C54_weightless_bin_refuted : exists lex n y w s k,
  per_row lex y /\ per_row lex w /\ per_row lex s /\ nonneg w /\ 0 < sumR w /\ (k < n)%nat /\
  nth_error (location_parameters lex n y w s) k = Some None.
Proof. exact weightless_bin_refuted. Qed.
Print Assumptions C54_weightless_bin_refuted.

(** The Poisson-like location model, for targets that are not constant: the mean
    residual of the bin, shrunk towards 0. *)
Theorem C54_locpoisson_estimates_partial : forall lex n y w s k std,
  per_row lex y -> per_row lex w -> per_row lex s -> nonneg w -> weighted_stddev y w = Some std -> 0 < std -> (k < n)%nat ->
  exists mean shrink u,
    nth_error (locpoisson_parameters lex n y w s) k = Some (Some (shrink * mean, u)) /\
    mean * bin_sum lex (fun j => at_row w j / pois_variance (at_row s j)) k =
      bin_sum lex (fun j => at_row w j * (at_row y j - nonneg_part (at_row s j)) / pois_variance (at_row s j)) k /\
    0 <= shrink < 1 /\ 0 < u /\
    shrink = bin_sum lex (at_row w) k / (bin_sum lex (at_row w) k + (u / std) ^ 2) /\
    ((forall j, ~ row_in lex k j) -> mean = 0 /\ shrink = 0 /\ u = std).
Proof. exact locpoisson_estimates. Qed.
Print Assumptions C54_locpoisson_estimates_partial.

Theorem C54_constant_target_refuted : exists lex n y w s, per_row lex y /\ per_row lex w /\ per_row lex s /\
  (forall x, In x w -> 0 < x) /\ (1 <= n)%nat /\
  forall k, (k < n)%nat -> nth_error (locpoisson_parameters lex n y w s) k = Some None.
Proof. exact constant_target_refuted. Qed.
Print Assumptions C54_constant_target_refuted.

Example c54_weights : sumR e_w <> 0 /\ 0 < bin_sum e_lex (at_row e_w) 0 /\ 0 < bin_sum e_lex (at_row e_w) 2.
Proof. exact ex_c54_hypotheses. Qed.
Example c54_stddev : weighted_stddev e_y e_w = Some (sqrt (sumR (map2 (fun wi yi => wi * (yi - 2) ^ 2) e_w e_y) / (5/2))) /\
  0 < sqrt (sumR (map2 (fun wi yi => wi * (yi - 2) ^ 2) e_w e_y) / (5/2)).
Proof. exact ex_stddev. Qed.

(** ** C55 *)
(** For any bin estimates, smoothers, learning rate and loss. *)
Theorem C55_location_mean_kept : forall cfg features calc smooth rate loss prior N w,
  well_shaped N features prior -> length w = N -> c_log cfg = false ->
  (forall f, In f features -> f_ext f = false /\ (1 <= f_dim f)%nat /\ learned_weight f w <> 0) ->
  forall fuel st, fit_main cfg features calc smooth (location_calibration features w) rate loss fuel prior = Some (Ok st) ->
  weighted_sum w (p_factors (t_preds st)) = weighted_sum w (p_factors prior) /\
  forall m f s, nth_error features m = Some f -> nth_error (t_feats st) m = Some s ->
    sumR (map (fun j => nth j w 0 * contribution f (learned s) j) (seq 0 N)) = 0.
Proof. exact location_mean_kept. Qed.
Print Assumptions C55_location_mean_kept.

Example c55_run : fit_main (ex_cfg true false false 0 1) [l_feature] l_calc ex_smooth (location_calibration [l_feature] l_w)
    ex_rate flat_loss 6 l_prior = Some (Ok l_state) /\
  well_shaped 2 [l_feature] l_prior /\ length l_w = 2%nat /\
  (forall f, In f [l_feature] -> f_ext f = false /\ (1 <= f_dim f)%nat /\ learned_weight f l_w <> 0).
Proof. exact (conj l_run l_hypotheses). Qed.
