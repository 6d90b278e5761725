(** Model of the bin estimates: cyclic_boosting/regression.py, classification.py,
    location.py, [calc_factors_generic] and [gaussian_matching_by_quantiles] of
    base.py. Numbers are reals; [None] is a float that is not finite. The special
    functions of scipy are section variables. *)
From Coq Require Import List Bool Reals.
From Verif.Model Require Import Num LexBins Train Predict Link.
Import ListNotations.
Local Open Scope R_scope.

(** [np.bincount(lex, weights=w, minlength=n)] for bin numbers below [n]. *)
Fixpoint bin_total (lex : list nat) (w : list R) (k : nat) : R :=
  match lex, w with
  | b :: r, x :: ws => (if Nat.eqb b k then x else 0) + bin_total r ws k
  | _, _ => 0
  end.
Definition bincounts (lex : list nat) (w : list R) (n : nat) : list R :=
  map (bin_total lex w) (seq 0 n).

Section Gamma.
(** [scipy.special.gammaincinv(alpha, 0.5)], the median of Gamma(alpha, 1). *)
Variable gamma_median : R -> R.

(** [get_gamma_priors] (regression.py:55-59). *)
Definition gamma_alpha_prior : R := 2.
Definition gamma_beta_prior : R := 167834 / 100000.

(** [_calc_factors_from_posterior] (regression.py:21-38) for one bin. *)
Definition posterior_estimate (alpha beta : R) : R :=
  if Rleb alpha 1000000000000 && Rleb beta 1000000000000 then gamma_median alpha / beta else alpha / beta.
Definition factor_from_posterior (alpha beta : R) : R := ln (posterior_estimate alpha beta).

(** [_calc_factors_and_uncertainties] (regression.py:41-52) with the log link. *)
Definition calc_factors_and_uncertainties (alpha beta : list R) : list R * list R :=
  let alpha_posterior := map (fun a => a + gamma_alpha_prior) alpha in
  let beta_posterior := map (fun b => b + gamma_beta_prior) beta in
  (map2 factor_from_posterior alpha_posterior beta_posterior,
   map (fun a => sqrt (ln (1 + a) - ln a)) alpha_posterior).

(** [CBNBinomRegressor.calc_parameters] (regression.py:146-163); [score] is the
    link prediction of the rows. *)
Definition nbinom_parameters (a c : R) (lex : list nat) (n : nat) (y weights score : list R) : list R * list R :=
  let prediction := map (unlink_func Log) score in
  let alpha_w := map2 (fun wy p => wy / (a + c * p)) (map2 Rmult weights y) prediction in
  let beta_w := map2 (fun w p => w * p / (a + c * p)) weights prediction in
  calc_factors_and_uncertainties (bincounts lex alpha_w n) (bincounts lex beta_w n).

(** [CBPoissonRegressor.precalc_parameters] and [calc_parameters]
    (regression.py:175-187). *)
Definition poisson_precalc (lex : list nat) (n : nat) (y weights : list R) : list R :=
  bincounts lex (map2 Rmult y weights) n.
Definition poisson_parameters (prefit : list R) (lex : list nat) (n : nat) (weights score : list R) : list R * list R :=
  let prediction := map (unlink_func Log) score in
  calc_factors_and_uncertainties prefit (bincounts lex (map2 Rmult weights prediction) n).
End Gamma.

Section Beta.
(** [scipy.stats.beta(alpha, beta).ppf(q)] and [scipy.special.erfinv]. *)
Variable beta_ppf : R -> R -> R -> R.
Variable erfinv : R -> R.

(** [_coefficient_for_gaussian_matching_by_quantiles] (base.py:1092-1098). *)
Definition matching_coefficient (perc : R) : R := sqrt 2 * erfinv (2 * perc - 1).

(** [gaussian_matching_by_quantiles] (base.py:1178-1187) for one bin with the
    logit link; [None]: a quantile has no finite link. *)
Definition gaussian_matching (ppf : R -> R) (perc1 perc2 : R) : option (R * R) :=
  match link_func Logit (ppf perc1), link_func Logit (ppf perc2) with
  | Some q1, Some q2 =>
      let a1 := matching_coefficient perc1 in
      let a2 := matching_coefficient perc2 in
      let sigma := (q1 - q2) / (a1 - a2) in
      Some (q1 - sigma * a1, sigma)
  | _, _ => None
  end.

(** [get_beta_priors] (classification.py:33-35). *)
Definition beta_prior : R := 1001 / 1000.

(** [_get_percentiles_from_distribution_parameters] (classification.py:100-103). *)
Definition percentiles (alpha beta : R) : R * R :=
  let shift := 4 / 10 * (alpha / (alpha + beta) - 1 / 2) in
  (3 / 4 - shift, 1 / 4 - shift).

(** The posterior of a bin from its weights, and its estimate
    (classification.py:77-88, 116-138). *)
Definition beta_posterior (alpha beta : R) : R * R :=
  ((if Rltb alpha 0 then 0 else alpha) + beta_prior, (if Rltb beta 0 then 0 else beta) + beta_prior).
Definition classifier_bin (alpha beta : R) : option (R * R) :=
  let '(a, b) := beta_posterior alpha beta in
  let '(perc1, perc2) := percentiles a b in
  gaussian_matching (beta_ppf a b) perc1 perc2.

(** [CBClassifier.calc_parameters] (classification.py:105-138). *)
Definition classifier_weights (y event_weights score : list R) : list R :=
  map2 Rmult event_weights (map2 boost_weight y (map (unlink_func Logit) score)).
Definition classifier_parameters (lex : list nat) (n : nat) (y event_weights score : list R) : list (option (R * R)) :=
  let weights := classifier_weights y event_weights score in
  let alpha := bincounts lex (map2 Rmult weights y) n in
  let beta := bincounts lex (map2 (fun w v => w * (1 - v)) weights y) n in
  map2 classifier_bin alpha beta.
End Beta.

(** [calc_factors_generic] (base.py:1368-1380) for bin [k]: weighted mean and the
    square root of its variance; [None] if the denominator is zero. *)
Definition calc_factors_generic (lex : list nat) (w_x w external : list R) (n : nat) (x0 w0 : R)
  : list (option (R * R)) :=
  map (fun k =>
    let sum_w_x := bin_total lex w_x k + w0 * x0 in
    let sum_w := bin_total lex w k + w0 in
    let sum_vw := bin_total lex (map2 Rmult external w) k + w0 in
    if Reqb sum_w 0 then None else Some (sum_w_x / sum_w, sqrt (sum_vw / (sum_w ^ 2))))
  (seq 0 n).

(** [precalc_variance_y] (location.py:82-127) with n_prior = 1, for bin [k];
    [None]: division by a zero weight sum. *)
Definition variance_prior (y w : list R) : option R :=
  match weighted_mean y w with
  | None => None
  | Some m =>
      let v := sumR (map2 (fun yi wi => (yi - m) * (yi - m) * wi) y w) / sumR w in
      Some (if Rleb v (1 / 1000000000) then 1 else v)
  end.
Definition in_bin (lex : list nat) (k : nat) : bool := existsb (Nat.eqb k) lex.
(** Mean of [y] in the bin of each row; a zero weight sum makes the entry NaN,
    and NaN spreads to the sum over the bin. *)
Definition squared_residuals (lex : list nat) (y w : list R) (k : nat) : option R :=
  if in_bin lex k && Reqb (bin_total lex w k) 0 then None
  else
    let mean_y := bin_total lex (map2 Rmult w y) k / bin_total lex w k in
    Some (bin_total lex (map2 (fun wi yi => wi * (yi - mean_y) ^ 2) w y) k).
Definition precalc_variance_y (lex : list nat) (n : nat) (y w : list R) : list (option R) :=
  map (fun k =>
    match variance_prior y w, squared_residuals lex y w k with
    | Some v, Some s =>
        let a0 := 1 / 2 in
        let b0 := a0 * v in
        Some ((b0 + 1 / 2 * s) / (a0 + 1 / 2 * bin_total lex w k))
    | _, _ => None
    end) (seq 0 n).

(** [calc_parameters_intercept] and [CBLocationRegressor.calc_parameters]
    (location.py:155-160, 213-216) with all variances finite; [None] if one of
    the variances of the rows of the bin is not. *)
Definition location_parameters (lex : list nat) (n : nat) (y w score : list R) : list (option (R * R)) :=
  let variances := precalc_variance_y lex n y w in
  let variance_of b := match nth b variances None with Some v => v | None => 1 end in
  let wv := map2 (fun wi b => wi / variance_of b) w lex in
  let w_x := map2 Rmult wv (map2 Rminus y score) in
  map2 (fun v r => match v with Some _ => r | None => None end)
    variances (calc_factors_generic lex w_x wv w n 0 (1 / 100)).

(** [calibrate_to_weighted_mean] (location.py:218-230); the neutral factor in link
    space is 0. *)
Definition centred (f w : list R) : list R :=
  map (fun x => x - sumR (map2 Rmult f w) / sumR w) f.
Definition calibrate (mnl : bool) (weightsums f : list R) : list R :=
  if mnl then centred (removelast f) (removelast weightsums) ++ [0]
  else centred f weightsums.

(** The same for the feature groups of a training: [bin_weightsums] are the sums
    of the weights in the bins (features.py:171). *)
Definition location_calibration (features : list feature) (weights : list R) (i : nat) (f : list R) : list R :=
  match nth_error features i with
  | Some g => calibrate (f_mnl g) (bincounts (f_lex g) weights (S (f_finite g))) f
  | None => f
  end.

(** [weighted_stddev] (utils.py:650-668). *)
Definition weighted_stddev (y w : list R) : option R :=
  match weighted_mean y w with
  | None => None
  | Some m => Some (sqrt (sumR (map2 (fun wi yi => wi * (yi - m) ^ 2) w y) / sumR w))
  end.

(** [CBLocPoissonRegressor] (location.py:21-75). *)
Definition locpoisson_bin (global_std factor_num den unc_num count : R) : option (R * R) :=
  let d := if Rltb 0 den then den else 1 in
  let summand := factor_num / d in
  let u0 := unc_num / d in
  let u := if Rltb 0 u0 then u0 else global_std in
  (* 0 / 0 in the prior term *)
  if Reqb global_std 0 then None
  else Some (1 / (count / u ^ 2 + 1 / global_std ^ 2) * (count * summand / u ^ 2 + 0 / global_std ^ 2), u).
Definition locpoisson_parameters (lex : list nat) (n : nat) (y w score : list R) : list (option (R * R)) :=
  let prediction := map (fun s => if Rltb 0 s then s else 0) score in
  let variance := map (fun p => if Rleb p 0 then 1 else p) prediction in
  let num := map2 Rdiv (map2 Rmult w (map2 Rminus y prediction)) variance in
  let den := map2 Rdiv w variance in
  let unc := map2 (fun wi v => wi ^ 2 / v) w variance in
  map (fun k =>
    match weighted_stddev y w with
    | None => None
    | Some s => locpoisson_bin s (bin_total lex num k) (bin_total lex den k) (bin_total lex unc k) (bin_total lex w k)
    end) (seq 0 n).
