(** C132: what a single feature group of the classifier learns. *)
From Coq Require Import ZArith QArith List Bool Reals.
From Verif.Model Require Import Num LexBins Train Predict Link Estimators WholeFit BinSmoothers.
From Verif.Spec Require Import DataSpec LexSpec PredictSpec InsampleSpec DescentSpec CellSpec ConstantSpec PoissonCellSpec ClassifierCellSpec.
From Verif.Proofs Require Import TrainExamples WholeExamples DescentExamples CellExamples ClassifierCell ClassifierCellExamples.
Import ListNotations.
Local Open Scope R_scope.

(** Training succeeds if less than 99.9 percent of the weight lies on the class 1. Without the
    criteria for early stopping it makes the configured number of passes. *)
Theorem C132_trains : forall gm bppf erfinv bad g cfg rate D,
  between_evidence bppf erfinv -> class_data g D -> (forall it i, 0 <= rate it i <= 1) -> g_smoother g = bin_values ->
  (c_hier cfg = false \/ g_hier g = true) -> c_log cfg = false -> c_aggregate cfg = true ->
  forall fuel, total_target D < (1 - 1/1000) * total_weight D -> c_hier cfg = false -> c_maxiter cfg <> 0%nat -> (c_maxiter cfg <= fuel)%nat ->
  c_minfactor cfg < 100 -> c_minloss cfg < IZR (10 ^ 20) ->
  exists t, whole_fit gm bppf erfinv bad BinaryClassifier false [g] cfg rate fuel D = Trained t /\
    unlink_func Logit (o_scale t) = total_target D / total_weight D + 1 / 1000 /\
    (c_minfactor cfg < 0 -> c_minloss cfg < 0 -> o_iterations t = c_maxiter cfg).
Proof. exact class_trains. Qed.
Print Assumptions C132_trains.

(** ... and does not fail to converge with hierarchical groups either. *)
Theorem C132_never_diverges : forall gm bppf erfinv bad g cfg rate D,
  between_evidence bppf erfinv -> class_data g D -> (forall it i, 0 <= rate it i <= 1) -> g_smoother g = bin_values ->
  (c_hier cfg = false \/ g_hier g = true) -> c_log cfg = false -> c_aggregate cfg = true ->
  forall fuel, whole_fit gm bppf erfinv bad BinaryClassifier false [g] cfg rate fuel D <> Failed ConvergenceError.
Proof. exact class_never_diverges. Qed.
Print Assumptions C132_never_diverges.

(** The probability predicted for a training row lies between the baseline and the frequency
    of the class 1 in its bin. *)
Theorem C132_between : forall gm bppf erfinv bad g cfg rate D,
  between_evidence bppf erfinv -> class_data g D -> (forall it i, 0 <= rate it i <= 1) -> g_smoother g = bin_values ->
  (c_hier cfg = false \/ g_hier g = true) -> c_log cfg = false -> c_aggregate cfg = true ->
  forall fuel t j s cell m p,
  whole_fit gm bppf erfinv bad BinaryClassifier false [g] cfg rate fuel D = Trained t ->
  nth_error D j = Some s -> cell_of D s cell -> cell_mean cell D m -> 0 < cell_weight cell D ->
  nth_error (whole_predict BinaryClassifier false t D) j = Some p ->
  Rmin (unlink_func Logit (o_scale t)) m <= p <= Rmax (unlink_func Logit (o_scale t)) m.
Proof. exact class_between. Qed.
Print Assumptions C132_between.

(** The probabilities are never a worse fit to the training data than the baseline. *)
Theorem C132_never_worse : forall gm bppf erfinv bad g cfg rate D,
  between_evidence bppf erfinv -> class_data g D -> (forall it i, 0 <= rate it i <= 1) -> g_smoother g = bin_values ->
  (c_hier cfg = false \/ g_hier g = true) -> c_log cfg = false -> c_aggregate cfg = true ->
  forall fuel t, whole_fit gm bppf erfinv bad BinaryClassifier false [g] cfg rate fuel D = Trained t ->
  mean_deviation BinaryClassifier D (whole_predict BinaryClassifier false t D)
    <= mean_deviation BinaryClassifier D (baseline BinaryClassifier t (length D)).
Proof. exact class_never_worse. Qed.
Print Assumptions C132_never_worse.

(** With learning rates of at least [rho] and enough passes the probability comes
    arbitrarily close to the frequency of the class 1 in the bin: no trace of the prior of the
    estimates remains. *)
Theorem C132_limit : forall gm bppf erfinv bad g rate D, between_evidence bppf erfinv -> class_data g D -> g_smoother g = bin_values ->
  forall rho, 0 < rho -> (forall it i, rho <= rate it i <= 1) -> forall j s cell m eps,
  nth_error D j = Some s -> cell_of D s cell -> cell_mean cell D m -> 0 < cell_weight cell D ->
  (g_mnl g = false \/ ~ missing_entry (x_bins s 0%nat)) -> 0 < eps ->
  exists enough, forall cfg fuel t p,
    (c_hier cfg = false \/ g_hier g = true) -> c_log cfg = false -> c_aggregate cfg = true ->
    whole_fit gm bppf erfinv bad BinaryClassifier false [g] cfg rate fuel D = Trained t ->
    (enough <= o_iterations t)%nat ->
    nth_error (whole_predict BinaryClassifier false t D) j = Some p ->
    Rabs (p - m) <= eps.
Proof. exact class_limit. Qed.
Print Assumptions C132_limit.

(** In particular the class predicted for the row, 1 if the probability exceeds one half, is
    then the majority class of the bin. *)
Theorem C132_majority : forall gm bppf erfinv bad g rate D, between_evidence bppf erfinv -> class_data g D -> g_smoother g = bin_values ->
  forall rho, 0 < rho -> (forall it i, rho <= rate it i <= 1) -> forall j s cell m,
  nth_error D j = Some s -> cell_of D s cell -> cell_mean cell D m -> 0 < cell_weight cell D ->
  (g_mnl g = false \/ ~ missing_entry (x_bins s 0%nat)) -> m <> 1/2 ->
  exists enough, forall cfg fuel t p,
    (c_hier cfg = false \/ g_hier g = true) -> c_log cfg = false -> c_aggregate cfg = true ->
    whole_fit gm bppf erfinv bad BinaryClassifier false [g] cfg rate fuel D = Trained t ->
    (enough <= o_iterations t)%nat ->
    nth_error (whole_predict BinaryClassifier false t D) j = Some p ->
    (1/2 < p <-> 1/2 < m).
Proof. exact class_majority. Qed.
Print Assumptions C132_majority.

(** A row with a missing entry keeps the baseline if the group does not learn missing
    values. *)
Theorem C132_missing : forall gm bppf erfinv bad g cfg rate D,
  between_evidence bppf erfinv -> class_data g D -> (forall it i, 0 <= rate it i <= 1) -> g_smoother g = bin_values ->
  (c_hier cfg = false \/ g_hier g = true) -> c_log cfg = false -> c_aggregate cfg = true ->
  forall fuel t j s,
  whole_fit gm bppf erfinv bad BinaryClassifier false [g] cfg rate fuel D = Trained t ->
  nth_error D j = Some s -> g_mnl g = true -> missing_entry (x_bins s 0%nat) ->
  nth_error (whole_predict BinaryClassifier false t D) j = Some (unlink_func Logit (o_scale t)).
Proof. exact class_missing. Qed.
Print Assumptions C132_missing.

(** The hypotheses are met by a logistic distribution in place of the beta distribution and by
    two bins, in the first of which the class 1 has a quarter of the weight: the baseline is
    0.501, and enough passes bring the prediction of that bin to 0.25. *)
Example c132_case : forall gm bad,
  between_evidence logistic_ppf straight /\ class_data plain_group votes /\ g_smoother plain_group = bin_values /\ g_mnl plain_group = false /\
  cell_of votes (w_row 0%Q 0 3) first_cell /\ cell_mean first_cell votes (1/4) /\ cell_weight first_cell votes = 4 /\
  forall eps, 0 < eps -> exists n t p,
    whole_fit gm logistic_ppf straight bad BinaryClassifier false [plain_group] (s_cfg n) ex_rate n votes = Trained t /\
    unlink_func Logit (o_scale t) = 501/1000 /\ nth_error (whole_predict BinaryClassifier false t votes) 0 = Some p /\ Rabs (p - 1/4) <= eps.
Proof. exact class_case. Qed.
