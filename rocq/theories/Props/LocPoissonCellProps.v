(** C136: what a single feature group of the Poisson-like location regressor learns. *)
From Coq Require Import ZArith QArith List Bool Reals.
From Verif.Model Require Import Num Train WholeFit BinSmoothers.
From Verif.Spec Require Import LexSpec InsampleSpec CellSpec LocationCellSpec LocPoissonCellSpec.
From Verif.Proofs Require Import TrainExamples WholeExamples DescentExamples CellExamples LocationCellExamples LocPoissonCell LocPoissonBetter LocPoissonCellExamples.
Import ListNotations.
Local Open Scope R_scope.

(** The baseline is the mean target plus 0.001. Each pass removes the learned share of a bin,
    times the learning rate, from the distance between the prediction for its rows and their
    mean target. The predictions for rows without a value are the baseline if missing values
    are not learned. *)
Theorem C136_mean_partial : forall gm bppf erfinv bad g cfg rate D,
  binned_rows [g] D -> Forall (fun s => 0 < x_w s) D -> poisson_targets D -> (forall it i, 0 <= rate it i <= 1) ->
  g_smoother g = bin_values -> (c_hier cfg = false \/ g_hier g = true) -> c_log cfg = false -> c_aggregate cfg = true ->
  forall fuel t, whole_fit gm bppf erfinv bad LocPoissonRegressor false [g] cfg rate fuel D = Trained t ->
  o_scale t = mean_target D + 1 / 1000 /\ length (whole_predict LocPoissonRegressor false t D) = length D /\
  forall j s cell, nth_error D j = Some s -> cell_of D s cell ->
    0 < learned_share cell D < 1 /\
    (~ (g_mnl g = true /\ missing_entry (x_bins s 0%nat)) ->
      nth_error (whole_predict LocPoissonRegressor false t D) j =
      Some (mean_of_cell cell D + (o_scale t - mean_of_cell cell D) * distance_left (fun it => rate it 0%nat) (learned_share cell D) (o_iterations t))) /\
    (g_mnl g = true /\ missing_entry (x_bins s 0%nat) -> nth_error (whole_predict LocPoissonRegressor false t D) j = Some (o_scale t)).
Proof. exact locpoisson_mean. Qed.
Print Assumptions C136_mean_partial.

(** With learning rates of at least [rho] and enough passes, the prediction for a training
    row is as close as one likes to the mean target of its bin. *)
Theorem C136_limit_partial : forall gm bppf erfinv bad g rate D,
  binned_rows [g] D -> Forall (fun s => 0 < x_w s) D -> poisson_targets D -> g_smoother g = bin_values ->
  forall rho, 0 < rho -> (forall it i, rho <= rate it i <= 1) -> forall j s cell eps, nth_error D j = Some s -> cell_of D s cell ->
  ~ (g_mnl g = true /\ missing_entry (x_bins s 0%nat)) -> 0 < eps ->
  exists enough, forall cfg fuel t p,
    (c_hier cfg = false \/ g_hier g = true) -> c_log cfg = false -> c_aggregate cfg = true ->
    whole_fit gm bppf erfinv bad LocPoissonRegressor false [g] cfg rate fuel D = Trained t -> (enough <= o_iterations t)%nat ->
    nth_error (whole_predict LocPoissonRegressor false t D) j = Some p ->
    Rabs (p - mean_of_cell cell D) <= eps.
Proof. exact locpoisson_limit. Qed.
Print Assumptions C136_limit_partial.

(** Training makes as many passes as allowed if no other criterion stops it: it does not
    diverge. *)
Theorem C136_passes_partial : forall gm bppf erfinv bad g cfg rate D,
  binned_rows [g] D -> Forall (fun s => 0 < x_w s) D -> poisson_targets D -> (forall it i, 0 <= rate it i <= 1) ->
  g_smoother g = bin_values -> (c_hier cfg = false \/ g_hier g = true) -> c_log cfg = false -> c_aggregate cfg = true ->
  c_hier cfg = false -> c_minfactor cfg < 0 -> c_minloss cfg < 0 -> c_maxiter cfg <> 0%nat ->
  exists t, whole_fit gm bppf erfinv bad LocPoissonRegressor false [g] cfg rate (c_maxiter cfg) D = Trained t /\
    o_iterations t = c_maxiter cfg.
Proof. exact locpoisson_passes. Qed.
Print Assumptions C136_passes_partial.

(** More passes do not make the predictions for the training rows worse. *)
Theorem C136_better_partial : forall gm bppf erfinv bad g rate D,
  binned_rows [g] D -> Forall (fun s => 0 < x_w s) D -> poisson_targets D -> (forall it i, 0 <= rate it i <= 1) -> g_smoother g = bin_values ->
  forall cfg fuel t cfg' fuel' t',
  (c_hier cfg = false \/ g_hier g = true) -> c_log cfg = false -> c_aggregate cfg = true ->
  (c_hier cfg' = false \/ g_hier g = true) -> c_log cfg' = false -> c_aggregate cfg' = true ->
  whole_fit gm bppf erfinv bad LocPoissonRegressor false [g] cfg rate fuel D = Trained t ->
  whole_fit gm bppf erfinv bad LocPoissonRegressor false [g] cfg' rate fuel' D = Trained t' ->
  (o_iterations t <= o_iterations t')%nat ->
  squares D (whole_predict LocPoissonRegressor false t' D) <= squares D (whole_predict LocPoissonRegressor false t D).
Proof. exact locpoisson_better. Qed.
Print Assumptions C136_better_partial.

(** Targets 0 and 2 in the first bin and 10 in the second: the predictions of the first bin
    are 1 + 4.501 · 2/85 after one full step, and approach 1. *)
Example C136_case : forall gm bppf erfinv bad,
  binned_rows [plain_group] lc_data /\ Forall (fun s => 0 < x_w s) lc_data /\ poisson_targets lc_data /\
  cell_of lc_data (w_row 0 0 1) (lc_same (w_row 0 0 1)) /\
  mean_of_cell (lc_same (w_row 0 0 1)) lc_data = 1 /\ learned_share (lc_same (w_row 0 0 1)) lc_data = 83 / 85 /\
  (exists t, whole_fit gm bppf erfinv bad LocPoissonRegressor false [plain_group] (n_cfg 1) ex_rate 1 lc_data = Trained t /\
    nth_error (whole_predict LocPoissonRegressor false t lc_data) 0 = Some (1 + 4501 / 1000 * (2 / 85))) /\
  forall eps, 0 < eps -> exists cfg t p,
    whole_fit gm bppf erfinv bad LocPoissonRegressor false [plain_group] cfg ex_rate (c_maxiter cfg) lc_data = Trained t /\
    nth_error (whole_predict LocPoissonRegressor false t lc_data) 0 = Some p /\ Rabs (p - 1) <= eps.
Proof. exact lp_case. Qed.
Print Assumptions C136_case.

(** Negative targets are accepted, but then training may fail: with the target -1 in one bin
    and 1 in the other, a full learning rate and the default criteria it ends with a
    [ConvergenceError]. *)
Theorem C136_negative_refuted : forall gm bppf erfinv bad, exists g D,
  binned_rows [g] D /\ Forall (fun s => 0 < x_w s) D /\ (exists s s', In s D /\ In s' D /\ x_y s <> x_y s') /\
  g_smoother g = bin_values /\ 0 <= mean_target D /\
  forall cfg fuel, c_log cfg = false -> c_aggregate cfg = true -> c_hier cfg = false ->
    c_minfactor cfg <= 1 / 1000 -> c_minloss cfg <= 1 / 1000 -> (7 <= c_maxiter cfg)%nat -> (11 <= fuel)%nat ->
    whole_fit gm bppf erfinv bad LocPoissonRegressor false [g] cfg (fun _ _ => 1) fuel D = Failed ConvergenceError.
Proof. exact locpoisson_negative_refuted. Qed.
Print Assumptions C136_negative_refuted.
