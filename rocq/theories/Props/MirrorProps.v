(** C110: mirrored training data give the mirrored model. *)
From Coq Require Import ZArith List Bool Reals.
From Verif.Model Require Import Num LexBins Train Predict Link WholeFit BinSmoothers.
From Verif.Spec Require Import DataSpec MirrorSpec.
From Verif.Proofs Require Import TrainExamples WholeExamples RefitExamples MirrorFacts MirrorExamples.
Import ListNotations.
Local Open Scope R_scope.

(** The background subtraction regressor: negated targets (and prior predictions)
    give the negated baseline and contributions, after the same iterations with the
    same loss, and all predictions are negated. The estimator has no logarithmic link
    (base.py:592), weights are not negative and the smoothers respect the sign. *)
Theorem C110_background_subtraction : forall gamma_median beta_ppf erfinv bad regalpha prior gs cfg rate fuel D,
  -1 <= regalpha -> (forall s, In s D -> 0 <= x_w s) -> c_log cfg = false ->
  (forall g, In g gs -> odd_smoother (g_smoother g)) ->
  let k := GBSRegressor regalpha in
  whole_fit gamma_median beta_ppf erfinv bad k prior gs cfg rate fuel (map (mirror_row k) D) =
    mirror_result (whole_fit gamma_median beta_ppf erfinv bad k prior gs cfg rate fuel D) /\
  forall m m' X,
    whole_fit gamma_median beta_ppf erfinv bad k prior gs cfg rate fuel D = Trained m ->
    whole_fit gamma_median beta_ppf erfinv bad k prior gs cfg rate fuel (map (mirror_row k) D) = Trained m' ->
    whole_predict k prior m' (map (mirror_row k) X) = map (mirror_value k) (whole_predict k prior m X).
Proof. exact gbs_mirror. Qed.
Print Assumptions C110_background_subtraction.

(** The location regressor and the classifier: the same, for trainings that start from
    mirrored baselines; the missing part is refuted below. *)
Theorem C110_location_partial : forall gamma_median beta_ppf erfinv bad prior gs cfg rate fuel D scale,
  D <> [] -> (forall s, In s D -> 0 < x_w s) -> c_log cfg = false ->
  (forall g, In g gs -> odd_smoother (g_smoother g)) ->
  let k := LocationRegressor in
  fit_from gamma_median beta_ppf erfinv bad k prior gs cfg rate fuel (- scale) (map (mirror_row k) D) =
    mirror_result (fit_from gamma_median beta_ppf erfinv bad k prior gs cfg rate fuel scale D) /\
  forall m m' X,
    fit_from gamma_median beta_ppf erfinv bad k prior gs cfg rate fuel scale D = Trained m ->
    fit_from gamma_median beta_ppf erfinv bad k prior gs cfg rate fuel (- scale) (map (mirror_row k) D) = Trained m' ->
    whole_predict k prior m' (map (mirror_row k) X) = map (mirror_value k) (whole_predict k prior m X).
Proof. exact location_mirror. Qed.
Print Assumptions C110_location_partial.

Theorem C110_classifier_partial : forall gamma_median beta_ppf erfinv bad prior gs cfg rate fuel D scale,
  mirrored_beta beta_ppf -> odd_increasing erfinv ->
  mirrored_targets BinaryClassifier D -> c_log cfg = false ->
  (forall g, In g gs -> odd_smoother (g_smoother g)) ->
  let k := BinaryClassifier in
  fit_from gamma_median beta_ppf erfinv bad k prior gs cfg rate fuel (- scale) (map (mirror_row k) D) =
    mirror_result (fit_from gamma_median beta_ppf erfinv bad k prior gs cfg rate fuel scale D) /\
  forall m m' X,
    fit_from gamma_median beta_ppf erfinv bad k prior gs cfg rate fuel scale D = Trained m ->
    fit_from gamma_median beta_ppf erfinv bad k prior gs cfg rate fuel (- scale) (map (mirror_row k) D) = Trained m' ->
    whole_predict k prior m' (map (mirror_row k) X) = map (mirror_value k) (whole_predict k prior m X).
Proof. exact class_mirror. Qed.
Print Assumptions C110_classifier_partial.

(** The rest of a training is [fit_from] its baseline. *)
Theorem C110_from_the_baseline : forall gamma_median beta_ppf erfinv bad k prior gs cfg rate fuel D,
  whole_fit gamma_median beta_ppf erfinv bad k prior gs cfg rate fuel D =
  match kind_scale k (map x_y D) (map x_w D) with
  | None => NoBaseline
  | Some scale => fit_from gamma_median beta_ppf erfinv bad k prior gs cfg rate fuel scale D
  end.
Proof. exact whole_is_from. Qed.
Print Assumptions C110_from_the_baseline.

(** The baseline is not mirrored: 0.001 is added to the mean (base.py:407), so that
    negated targets do not give negated predictions and the probabilities of a
    category not seen before do not change places with the classes. *)
Theorem C110_location_refuted : exists gamma_median beta_ppf erfinv bad gs cfg rate fuel D m m' X,
  D <> [] /\ (forall s, In s D -> 0 < x_w s) /\ c_log cfg = false /\ (forall g, In g gs -> odd_smoother (g_smoother g)) /\
  whole_fit gamma_median beta_ppf erfinv bad LocationRegressor false gs cfg rate fuel D = Trained m /\
  whole_fit gamma_median beta_ppf erfinv bad LocationRegressor false gs cfg rate fuel (map (mirror_row LocationRegressor) D) = Trained m' /\
  whole_predict LocationRegressor false m' (map (mirror_row LocationRegressor) X) <>
    map (mirror_value LocationRegressor) (whole_predict LocationRegressor false m X).
Proof. exact location_refutes. Qed.
Print Assumptions C110_location_refuted.
Theorem C110_classifier_refuted : exists gamma_median beta_ppf erfinv bad gs cfg rate fuel D m m' X,
  mirrored_beta beta_ppf /\ odd_increasing erfinv /\ mirrored_targets BinaryClassifier D /\
  (forall s, In s D -> 0 < x_w s) /\ c_log cfg = false /\ (forall g, In g gs -> odd_smoother (g_smoother g)) /\
  whole_fit gamma_median beta_ppf erfinv bad BinaryClassifier false gs cfg rate fuel D = Trained m /\
  whole_fit gamma_median beta_ppf erfinv bad BinaryClassifier false gs cfg rate fuel (map (mirror_row BinaryClassifier) D) = Trained m' /\
  whole_predict BinaryClassifier false m' (map (mirror_row BinaryClassifier) X) <>
    map (mirror_value BinaryClassifier) (whole_predict BinaryClassifier false m X).
Proof. exact classifier_refutes. Qed.
Print Assumptions C110_classifier_refuted.

(** Smoothers that respect the sign. *)
Theorem C110_smoothers : odd_smoother bin_values /\ odd_smoother (weighted_mean_bins None) /\ odd_smoother explicit_mean /\
  odd_smoother default_unordered.
Proof. exact odd_smoothers. Qed.
Print Assumptions C110_smoothers.

(** The hypotheses are met: a training of the background subtraction model that ends,
    with its mirror; a training of the location model; and functions with the symmetry
    of scipy's. *)
Example c110_background_subtraction : forall gamma_median beta_ppf erfinv bad,
  -1 <= 0 /\ (forall s, In s d_one -> 0 <= x_w s) /\ c_log w_cfg = false /\ odd_smoother (g_smoother (r_style [c_a])) /\
  whole_fit gamma_median beta_ppf erfinv bad g_kind false [r_style [c_a]] w_cfg ex_rate 1 d_one = Trained r_one /\
  whole_fit gamma_median beta_ppf erfinv bad g_kind false [r_style [c_a]] w_cfg ex_rate 1 (map (mirror_row g_kind) d_one) = Trained (mirror_model r_one).
Proof. exact gbs_example. Qed.
Example c110_location : forall gamma_median beta_ppf erfinv bad, exists m,
  fit_from gamma_median beta_ppf erfinv bad LocationRegressor false [w_group explicit_mean] w_cfg ex_rate 1 (1/1000) heavy = Trained m /\
  fit_from gamma_median beta_ppf erfinv bad LocationRegressor false [w_group explicit_mean] w_cfg ex_rate 1 (- (1/1000)) (map (mirror_row LocationRegressor) heavy) = Trained (mirror_model m).
Proof. exact location_example. Qed.
Example c110_functions : mirrored_beta mean_ppf /\ odd_increasing (fun x => x) /\
  mirrored_targets BinaryClassifier (balanced 0 1).
Proof. exact class_example. Qed.
