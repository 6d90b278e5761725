(** C126: what a single feature group of the background subtraction regressor learns. *)
From Coq Require Import ZArith QArith List Bool Reals.
From Verif.Model Require Import Num Train WholeFit BinSmoothers.
From Verif.Spec Require Import LexSpec RegularizeSpec InsampleSpec CellSpec.
From Verif.Proofs Require Import TrainExamples WholeExamples DescentExamples CellFacts CellExamples.
Import ListNotations.
Local Open Scope R_scope.

(** Without smoothing, the prediction for a training row is the weighted mean target [m] of
    the rows in its bin, plus a known part of the distance between the baseline and [m]. *)
Theorem C126_learned_mean : forall gm bppf erfinv bad regalpha g cfg rate D,
  0 <= regalpha -> binned_rows [g] D -> Forall (fun s => 0 <= x_w s) D -> visits D <> 0 ->
  (forall it i, 0 <= rate it i <= 1) -> g_smoother g = bin_values ->
  (c_hier cfg = false \/ g_hier g = true) -> c_log cfg = false -> c_aggregate cfg = true ->
  forall fuel t j s cell m,
  whole_fit gm bppf erfinv bad (GBSRegressor regalpha) false [g] cfg rate fuel D = Trained t ->
  nth_error D j = Some s -> cell_of D s cell -> cell_mean cell D m ->
  (g_mnl g = false \/ ~ missing_entry (x_bins s 0%nat)) ->
  nth_error (whole_predict (GBSRegressor regalpha) false t D) j =
    Some (m + (o_scale t - m) * left_over (fun it => rate it 0%nat) regalpha (cell_weight cell D) (o_iterations t)).
Proof. intros until 9. apply learned_mean; assumption. Qed.
Print Assumptions C126_learned_mean.

(** A row with a missing entry keeps the baseline if the group does not learn missing
    values. *)
Theorem C126_missing : forall gm bppf erfinv bad regalpha g cfg rate D,
  0 <= regalpha -> binned_rows [g] D -> Forall (fun s => 0 <= x_w s) D -> visits D <> 0 ->
  (forall it i, 0 <= rate it i <= 1) -> g_smoother g = bin_values ->
  (c_hier cfg = false \/ g_hier g = true) -> c_log cfg = false -> c_aggregate cfg = true ->
  forall fuel t j s,
  whole_fit gm bppf erfinv bad (GBSRegressor regalpha) false [g] cfg rate fuel D = Trained t ->
  nth_error D j = Some s -> g_mnl g = true -> missing_entry (x_bins s 0%nat) ->
  nth_error (whole_predict (GBSRegressor regalpha) false t D) j = Some (o_scale t).
Proof. intros until 9. apply missing_baseline; assumption. Qed.
Print Assumptions C126_missing.

(** The prediction lies between the baseline and the mean target of the bin; in a bin
    without weight it is the baseline. *)
Theorem C126_between : forall gm bppf erfinv bad regalpha g rate D,
  0 <= regalpha -> binned_rows [g] D -> Forall (fun s => 0 <= x_w s) D -> visits D <> 0 -> g_smoother g = bin_values ->
  forall cfg, (forall it i, 0 <= rate it i <= 1) -> (c_hier cfg = false \/ g_hier g = true) ->
  c_log cfg = false -> c_aggregate cfg = true ->
  forall fuel t j s cell m p,
  whole_fit gm bppf erfinv bad (GBSRegressor regalpha) false [g] cfg rate fuel D = Trained t ->
  nth_error D j = Some s -> cell_of D s cell -> cell_mean cell D m ->
  nth_error (whole_predict (GBSRegressor regalpha) false t D) j = Some p ->
  between (o_scale t) m p /\ (cell_weight cell D = 0 -> p = o_scale t).
Proof. exact learned_between. Qed.
Print Assumptions C126_between.

(** With learning rates of at least [rho] and enough passes it is as close to the mean
    target of the bin as one likes, whatever the regularisation. *)
Theorem C126_limit : forall gm bppf erfinv bad regalpha g rate D,
  0 <= regalpha -> binned_rows [g] D -> Forall (fun s => 0 <= x_w s) D -> visits D <> 0 -> g_smoother g = bin_values ->
  forall rho, 0 < rho -> (forall it i, rho <= rate it i <= 1) -> forall j s cell m eps,
  nth_error D j = Some s -> cell_of D s cell -> cell_mean cell D m -> 0 < cell_weight cell D ->
  (g_mnl g = false \/ ~ missing_entry (x_bins s 0%nat)) -> 0 < eps ->
  exists enough, forall cfg fuel t p,
    (c_hier cfg = false \/ g_hier g = true) -> c_log cfg = false -> c_aggregate cfg = true ->
    whole_fit gm bppf erfinv bad (GBSRegressor regalpha) false [g] cfg rate fuel D = Trained t ->
    (enough <= o_iterations t)%nat ->
    nth_error (whole_predict (GBSRegressor regalpha) false t D) j = Some p -> Rabs (p - m) <= eps.
Proof. exact learned_limit. Qed.
Print Assumptions C126_limit.

(** [regalpha] is documented as a shrinkage of the result to 0. It is not: in these data,
    with the baseline 0 and the mean target 1 in the first bin, trainings with any
    [regalpha] predict values as close to 1 as one likes. *)
Theorem C126_regularisation_refuted : forall gm bppf erfinv bad,
  cell_of noisy (w_row 0%Q 101 1) first_cell /\ cell_mean first_cell noisy 1 /\
  forall regalpha eps, 0 <= regalpha -> 0 < eps -> exists cfg t p,
    c_log cfg = false /\ c_aggregate cfg = true /\
    whole_fit gm bppf erfinv bad (GBSRegressor regalpha) false [plain_group] cfg ex_rate (c_maxiter cfg) noisy = Trained t /\
    o_scale t = 0 /\ nth_error (whole_predict (GBSRegressor regalpha) false t noisy) 0 = Some p /\ Rabs (p - 1) <= eps.
Proof. exact regularisation_vanishes. Qed.
Print Assumptions C126_regularisation_refuted.

(** The hypotheses are met, and after two passes the prediction is 8/9. *)
Example c126_case : forall gm bppf erfinv bad,
  binned_rows [plain_group] noisy /\ Forall (fun s => 0 <= x_w s) noisy /\ visits noisy <> 0 /\
  (forall it i, 0 <= ex_rate it i <= 1) /\ g_smoother plain_group = bin_values /\ g_mnl plain_group = false /\
  cell_of noisy (w_row 0%Q 101 1) first_cell /\ cell_weight first_cell noisy = 2 /\ cell_mean first_cell noisy 1 /\
  exists t, whole_fit gm bppf erfinv bad (GBSRegressor 0) false [plain_group] (n_cfg 2) ex_rate 2 noisy = Trained t /\
    o_iterations t = 2%nat /\ nth_error (whole_predict (GBSRegressor 0) false t noisy) 0 = Some (8 / 9).
Proof. exact cell_case. Qed.
