(** C124: training does not make the background subtraction regressor worse. *)
From Coq Require Import ZArith List Bool Reals.
From Verif.Model Require Import Num Train WholeFit BinSmoothers.
From Verif.Spec Require Import TrainSpec InsampleSpec DescentSpec.
From Verif.Proofs Require Import TrainExamples WholeExamples DescentFacts DescentExamples.
Import ListNotations.
Local Open Scope R_scope.

(** With smoothers that move the estimate of a bin towards 0 at most, the loss after each
    pass is at most the loss before. Missing: the default smoothing, for which it is
    refuted below, and the other estimators. *)
Theorem C124_never_rises_partial : forall gm bppf erfinv bad regalpha gs cfg rate fuel D scale,
  0 <= regalpha -> binned_rows gs D -> Forall (fun s => 0 <= x_w s) D -> visits D <> 0 ->
  (forall it i, 0 <= rate it i <= 1) -> Forall (fun g => shrinks (g_smoother g)) gs ->
  c_log cfg = false -> c_aggregate cfg = true ->
  never_rises (recorded_losses gm bppf erfinv bad (GBSRegressor regalpha) gs cfg rate fuel D scale).
Proof. intros. apply recorded_down; assumption. Qed.
Print Assumptions C124_never_rises_partial.

(** ... training is never ended for divergence, and the predictions for the training data
    deviate from the targets at most as much as the constant baseline; if they deviate as
    much, they are the baseline. *)
Theorem C124_never_worse_partial : forall gm bppf erfinv bad regalpha gs cfg rate fuel D,
  0 <= regalpha -> binned_rows gs D -> Forall (fun s => 0 <= x_w s) D -> visits D <> 0 ->
  (forall it i, 0 <= rate it i <= 1) -> Forall (fun g => shrinks (g_smoother g)) gs ->
  c_log cfg = false -> c_aggregate cfg = true ->
  let k := GBSRegressor regalpha in
  whole_fit gm bppf erfinv bad k false gs cfg rate fuel D <> Failed ConvergenceError /\
  forall t, whole_fit gm bppf erfinv bad k false gs cfg rate fuel D = Trained t ->
    let baseline := repeat (o_scale t) (length D) in
    let predictions := whole_predict k false t D in
    mean_deviation k D predictions <= mean_deviation k D baseline /\
    (mean_deviation k D predictions = mean_deviation k D baseline -> predictions = baseline).
Proof. intros. apply whole_down; assumption. Qed.
Print Assumptions C124_never_worse_partial.

(** Smoothers that move at most towards 0: no smoothing with or without normalisation, the
    regularisation to the weighted mean with the prior prediction 0, that to the prior
    expectation 0, and each of them where bins without weight are cut. *)
Theorem C124_smoothers :
  shrinks bin_values /\ shrinks (normalised bin_values) /\ shrinks (weighted_mean_bins (Some 0)) /\
  (forall threshold, 0 <= threshold -> shrinks (prior_expectation_bins 0 threshold)) /\
  forall s, shrinks s -> shrinks (cut_unseen s).
Proof.
  exact (conj values_shrink (conj normalised_values_shrink (conj mean_shrinks (conj expectation_shrinks cut_shrinks)))).
Qed.
Print Assumptions C124_smoothers.

(** With the default smoothing of a categorical column a training can end with predictions
    that are worse on the training data than the constant baseline. *)
Theorem C124_default_smoothing_refuted : forall gm bppf erfinv bad, exists g cfg rate D t,
  g_smoother g = default_unordered /\ binned_rows [g] D /\ Forall (fun s => x_w s = 1) D /\ visits D <> 0 /\
  (forall it i, rate it i = 1) /\ c_log cfg = false /\ c_aggregate cfg = true /\
  whole_fit gm bppf erfinv bad (GBSRegressor 0) false [g] cfg rate 1 D = Trained t /\
  mean_deviation (GBSRegressor 0) D (repeat (o_scale t) (length D)) <
  mean_deviation (GBSRegressor 0) D (whole_predict (GBSRegressor 0) false t D).
Proof. exact default_rises. Qed.
Print Assumptions C124_default_smoothing_refuted.

(** The same data without smoothing meet the hypotheses, and the deviation gets smaller. *)
Example c124_case : forall gm bppf erfinv bad,
  binned_rows [plain_group] noisy /\ Forall (fun s => 0 <= x_w s) noisy /\ visits noisy <> 0 /\
  (forall it i, 0 <= ex_rate it i <= 1) /\ Forall (fun g => shrinks (g_smoother g)) [plain_group] /\
  c_log w_cfg = false /\ c_aggregate w_cfg = true /\
  exists t, whole_fit gm bppf erfinv bad (GBSRegressor 0) false [plain_group] w_cfg ex_rate 1 noisy = Trained t /\
    mean_deviation (GBSRegressor 0) noisy (whole_predict (GBSRegressor 0) false t noisy) <
    mean_deviation (GBSRegressor 0) noisy (repeat (o_scale t) (length noisy)).
Proof. exact plain_case. Qed.
