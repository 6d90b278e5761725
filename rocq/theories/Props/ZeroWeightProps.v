(** C118: rows of weight zero have no influence on training. *)
From Coq Require Import ZArith QArith List Bool Reals Lra.
From Verif.Proofs Require Import LinkFacts WholeExamples QuantileFacts PriceFitExamples TrainExamples ZeroWeightFacts ZeroWeightExamples DispersionZero.
From Verif.Model Require Import Num LexBins Train Predict Link Estimators WholeFit Quantile LossModes Dispersion BinFit PriceFit SmootherChoice BinSmoothers.
From Verif.Spec Require Import DataSpec QuantileSpec BinFitSpec ZeroWeightSpec.
Import ListNotations.
Local Open Scope R_scope.

(** C118, for the six models with closed-form estimates: the outcome of a training on
    prepared data (including exceptions) is that of the rows with a weight, provided that
    every bin occurs in such a row. Missing: quantile regression, dispersions and the
    price model, for which it is false (below). *)
Theorem C118_training_partial : forall median beta_ppf erfinv bad k prior gs cfg rate fuel D,
  well_formed gs D -> covered D ->
  whole_fit median beta_ppf erfinv bad k prior gs cfg rate fuel D =
  whole_fit median beta_ppf erfinv bad k prior gs cfg rate fuel (weighty D).
Proof. exact zero_weights. Qed.
Print Assumptions C118_training_partial.

(** The same for the modes that minimise given costs, if the costs ignore rows without
    weight and the order of the rows. *)
Theorem C118_costs : forall sort minimize beta_ppf erfinv reorder bad m prior gs cfg rate fuel D,
  reorders reorder -> plain_mode m -> well_formed gs D -> covered D ->
  mode_fit sort minimize beta_ppf erfinv reorder bad m prior gs cfg rate fuel D =
  mode_fit sort minimize beta_ppf erfinv reorder bad m prior gs cfg rate fuel (weighty D).
Proof. exact mode_zero_weights. Qed.
Print Assumptions C118_costs.

Example C118_case : well_formed [w_group explicit_mean] with_zero /\ covered with_zero /\
  with_zero = [w_row 0 1 2; w_row 0 7 0; w_row 1 3 1] /\ weighty with_zero = [w_row 0 1 2; w_row 1 3 1].
Proof. split; [exact with_zero_formed|]. split; [exact with_zero_covered|]. split; [reflexivity|exact with_zero_weighty]. Qed.
Example C118_costs_case : plain_mode (AdditiveCosts weighted_squares).
Proof. exact weighted_squares_plain. Qed.

(** C118 is false for quantile regression: the baseline counts rows, also those without
    weight. *)
Theorem C118_quantile_refuted : exists D, covered D /\
  forall sort minimize beta_ppf erfinv reorder bad prior gs cfg rate fuel t t', sorts sort ->
  mode_fit sort minimize beta_ppf erfinv reorder bad (AdditiveQuantile (1/2)) prior gs cfg rate fuel D = Trained t ->
  mode_fit sort minimize beta_ppf erfinv reorder bad (AdditiveQuantile (1/2)) prior gs cfg rate fuel (weighty D) = Trained t' ->
  o_scale t = 2 /\ o_scale t' = 1.
Proof. exists heavy_zero. exact quantile_zero_weights. Qed.
Print Assumptions C118_quantile_refuted.

(** It is false for dispersions: the uncertainty of a bin is that of the number of its
    rows, whatever their weights, so that two trained models predict differently. *)
Theorem C118_dispersion_refuted : forall lgamma, (forall x, 0 < x -> lgamma x <> None) -> lgamma 1 = Some 0 ->
  exists gs cfg rate fuel D t t' x, covered (map fst D) /\
    dispersion_fit lgamma 0 false 1 false gs cfg rate fuel D = Trained t /\
    dispersion_fit lgamma 0 false 1 false gs cfg rate fuel (filter (fun r => negb (Reqb (x_w (fst r)) 0)) D) = Trained t' /\
    dispersion_predict false t [x] <> dispersion_predict false t' [x].
Proof. exact dispersion_zero_weight. Qed.
Print Assumptions C118_dispersion_refuted.
Theorem C118_dispersion_uncertainty_refuted : forall lgamma gamma bayes n_steps it (rows : list (mean_row * R)), rows <> [] ->
  snd (dispersion_estimate lgamma gamma bayes n_steps it rows) = 1 / sqrt (INR (length rows)).
Proof. exact dispersion_counts. Qed.
Print Assumptions C118_dispersion_uncertainty_refuted.

(** It is false for the price model: the estimates of exponents average over all rows. *)
Theorem C118_price_refuted : exists r s x, x_w (q_row s) = 0 /\ x_bins (q_row s) = x_bins (q_row r) /\ forall a c, exists t t',
  price_fit third a c 1 false [(u_group, true)] p_cfg ex_rate 1 [r; s] = Trained t /\
  price_fit third a c 1 false [(u_group, true)] p_cfg ex_rate 1 [r] = Trained t' /\
  price_fit_predict false t [x] <> price_fit_predict false t' [x].
Proof. exact price_zero_weights. Qed.
Print Assumptions C118_price_refuted.
