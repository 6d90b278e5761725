(** Properties of whole trainings of the loss-minimising modes and of the dispersion
    estimator. *)
From Coq Require Import ZArith QArith List Bool Reals Permutation Lra.
From Verif.Model Require Import Num LexBins Train Predict Link WholeFit Quantile Dispersion BinFit BinSmoothers.
From Verif.Spec Require Import PredictSpec DataSpec QuantileSpec BinFitSpec.
From Verif.Proofs Require Import TrainExamples GenericFacts WholeExamples BinFitFacts PriorDispersionFacts BinFitExamples.
Import ListNotations.
Local Open Scope R_scope.

(** C84: the order of the training rows does not matter for quantile regression and for
    costs that treat all rows alike. [sort] is numpy's sort of targets, [minimize] scipy's
    minimiser, [reorder] the order of the rows of a bin after [argsort]. *)
Theorem C84_loss_modes : forall sort minimize beta_ppf erfinv reorder bad m prior gs cfg rate fuel D D',
  sorts sort -> reorders reorder -> symmetric_mode m -> weighted_data D -> well_formed gs D -> Permutation D D' ->
  mode_fit sort minimize beta_ppf erfinv reorder bad m prior gs cfg rate fuel D =
  mode_fit sort minimize beta_ppf erfinv reorder bad m prior gs cfg rate fuel D'.
Proof. exact mode_order. Qed.
Print Assumptions C84_loss_modes.
Example C84_loss_modes_example : forall beta_ppf erfinv bad,
  sorts insertion_sort /\ reorders as_is /\ symmetric_mode (AdditiveQuantile (1/2)) /\ weighted_data heavy /\
  well_formed [w_group keep_values] heavy /\ Permutation heavy (rev heavy) /\
  mode_fit insertion_sort try_two beta_ppf erfinv as_is bad (AdditiveQuantile (1/2)) false [w_group keep_values] w_cfg ex_rate 1 heavy =
    Trained q_model.
Proof.
  intros. split; [exact insertion_sorts|]. split; [intros A l; apply Permutation_refl|]. split; [cbn; lra|].
  split; [exact heavy_weighted|]. split; [apply heavy_well_formed|]. split; [apply Permutation_rev|apply quantile_run].
Qed.

(** The same for the dispersion estimator; [lgamma] is the logarithm of the gamma function. *)
Theorem C84_dispersion : forall lgamma gamma bayes n_steps prior gs cfg rate fuel D D',
  well_formed gs (map fst D) -> Permutation D D' ->
  dispersion_fit lgamma gamma bayes n_steps prior gs cfg rate fuel D =
  dispersion_fit lgamma gamma bayes n_steps prior gs cfg rate fuel D'.
Proof. exact dispersion_order. Qed.
Print Assumptions C84_dispersion.
Example C84_dispersion_example : well_formed [w_group keep_values] (map fst mean_heavy) /\ Permutation mean_heavy (rev mean_heavy) /\
  dispersion_fit (fun _ => None) 1 false 1 false [w_group keep_values] w_cfg ex_rate 1 mean_heavy = Trained d_model.
Proof. split; [apply heavy_well_formed|]. split; [apply Permutation_rev|exact dispersion_run]. Qed.

(** C85 is false for the dispersion estimator: positive weights have no effect, with
    smoothers that use the weight sums of the bins only to tell empty bins (such as
    explicit smoothers without normalisation). *)
Theorem C85_dispersion_refuted : forall lgamma gamma bayes n_steps prior gs cfg rate fuel D D',
  (forall g, In g gs -> ignores_weights g) -> positive_weights D -> positive_weights D' -> Forall2 same_but_weight D D' ->
  dispersion_fit lgamma gamma bayes n_steps prior gs cfg rate fuel D =
  dispersion_fit lgamma gamma bayes n_steps prior gs cfg rate fuel D'.
Proof. exact dispersion_ignores_weights. Qed.
Print Assumptions C85_dispersion_refuted.
(** Copies of a row do: they change its uncertainty, which the smoothers use. *)
Theorem C85_dispersion_copies_refuted : forall lgamma gamma bayes n_steps it (r : mean_row) c k,
  snd (dispersion_estimate lgamma gamma bayes n_steps it (repeat (r, c) (S k))) = 1 / sqrt (INR (S k)).
Proof. exact copies_uncertainty. Qed.
Print Assumptions C85_dispersion_copies_refuted.
Example C85_dispersion_example : ignores_weights (w_group explicit_mean) /\ positive_weights mean_heavy /\
  Forall2 same_but_weight mean_heavy (map (fun r => (with_weight (fst r) 1, snd r)) mean_heavy) /\
  mean_heavy <> map (fun r => (with_weight (fst r) 1, snd r)) mean_heavy.
Proof.
  split; [exact unordered_ignores|]. split; [intros r [<-|[<-|[]]]; cbn; lra|]. split.
  - repeat constructor.
  - intro E. apply (f_equal (map (fun r => x_w (fst r)))) in E. cbn in E. injection E as E _. lra.
Qed.

(** C85 is false for quantile regression: the baseline differs between one row with
    weight two and two copies of it. *)
Theorem C85_quantile_refuted : exists D D', same_content D D' /\ weighted_data D /\
  forall sort minimize beta_ppf erfinv reorder bad prior gs cfg rate fuel t t', sorts sort ->
  mode_fit sort minimize beta_ppf erfinv reorder bad (AdditiveQuantile (1/2)) prior gs cfg rate fuel D = Trained t ->
  mode_fit sort minimize beta_ppf erfinv reorder bad (AdditiveQuantile (1/2)) prior gs cfg rate fuel D' = Trained t' ->
  o_scale t = 1 /\ o_scale t' = 2.
Proof. exists one_heavy, one_twice. exact quantile_copies. Qed.
Print Assumptions C85_quantile_refuted.

(** C97: there is one prediction per row, positive for multiplicative modes and between
    0 and 1 for classifiers and dispersions. *)
Theorem C97_loss_modes : forall prior m t X, length (mode_predict m prior t X) = length X /\
  forall v, In v (mode_predict m prior t X) -> mode_range m v.
Proof. exact mode_range_all. Qed.
Print Assumptions C97_loss_modes.
Theorem C97_dispersion : forall prior t X, length (dispersion_predict prior t X) = length X /\
  forall v, In v (dispersion_predict prior t X) -> 0 < v < 1.
Proof. exact dispersion_range. Qed.
Print Assumptions C97_dispersion.

(** C98: the odds of the prior are multiplied by the contributions of the features (here
    in link space); a missing prior counts as one half. Missing: priors at the ends or
    outside of the interval. *)
Theorem C98_prior_partial : forall lgamma gamma bayes n_steps gs cfg rate fuel D t X j s,
  dispersion_fit lgamma gamma bayes n_steps true gs cfg rate fuel D = Trained t -> nth_error X j = Some s ->
  exists v, nth_error (dispersion_predict true t X) j = Some v /\ 0 < v < 1 /\
    (forall c, x_prior s = Some c -> 0 < c < 1 ->
      odds v = odds c * exp (group_sum alone false 0 (o_groups t) (x_bins s))) /\
    (x_prior s = None -> odds v = exp (group_sum alone false 0 (o_groups t) (x_bins s))).
Proof. exact dispersion_prior. Qed.
Print Assumptions C98_prior_partial.
(** Of two rows in the same bins the one with the larger prior has the larger
    prediction. Missing, here and in the next theorem: priors at the ends. *)
Theorem C98_larger_prior_partial : forall lgamma gamma bayes n_steps gs cfg rate fuel D t X j j' s s' c c',
  dispersion_fit lgamma gamma bayes n_steps true gs cfg rate fuel D = Trained t ->
  nth_error X j = Some s -> nth_error X j' = Some s' -> x_bins s = x_bins s' ->
  x_prior s = Some c -> x_prior s' = Some c' -> 0 < c -> c < c' -> c' < 1 ->
  exists v v', nth_error (dispersion_predict true t X) j = Some v /\ nth_error (dispersion_predict true t X) j' = Some v' /\ v < v'.
Proof. exact dispersion_larger_prior. Qed.
Print Assumptions C98_larger_prior_partial.
(** Without learned contributions the prior is returned. *)
Theorem C98_returns_prior_partial : forall lgamma gamma bayes n_steps gs cfg rate fuel D t X j s c,
  dispersion_fit lgamma gamma bayes n_steps true gs cfg rate fuel D = Trained t ->
  nth_error X j = Some s -> x_prior s = Some c -> 0 < c < 1 ->
  group_sum alone false 0 (o_groups t) (x_bins s) = 0 ->
  nth_error (dispersion_predict true t X) j = Some c.
Proof. exact dispersion_returns_prior. Qed.
Print Assumptions C98_returns_prior_partial.
(** Without a column of priors all rows start from one half, whatever the data. *)
Theorem C98_no_prior_column : forall lgamma gamma bayes n_steps gs cfg rate fuel D t X j s,
  dispersion_fit lgamma gamma bayes n_steps false gs cfg rate fuel D = Trained t -> nth_error X j = Some s ->
  exists v, nth_error (dispersion_predict false t X) j = Some v /\ 0 < v < 1 /\
    odds v = exp (group_sum alone false 0 (o_groups t) (x_bins s)).
Proof. exact dispersion_no_prior. Qed.
Print Assumptions C98_no_prior_column.
(** A prior of 0 or less, or of 1 or more, counts as one half. *)
Theorem C98_ends_refuted : forall lgamma gamma bayes n_steps gs cfg rate fuel D t X j s c,
  dispersion_fit lgamma gamma bayes n_steps true gs cfg rate fuel D = Trained t -> nth_error X j = Some s ->
  x_prior s = Some c -> c <= 0 \/ 1 <= c ->
  exists v, nth_error (dispersion_predict true t X) j = Some v /\
    odds v = exp (group_sum alone false 0 (o_groups t) (x_bins s)).
Proof. exact dispersion_prior_ends. Qed.
Print Assumptions C98_ends_refuted.
Example C98_example :
  dispersion_fit (fun _ => None) 1 false 1 false [w_group keep_values] w_cfg ex_rate 1 mean_heavy = Trained d_model /\
  dispersion_fit (fun _ => None) 1 false 1 true [w_group keep_values] w_cfg ex_rate 1 mean_heavy = Trained d_model /\
  odds (1/4) = 1/3 /\ odds (1/2) = 1.
Proof. split; [exact dispersion_run|]. split; [exact dispersion_run|]. unfold odds. split; field. Qed.
