(** C131: what a single feature group of the negative binomial regressor learns. *)
From Coq Require Import ZArith QArith List Bool Reals.
From Verif.Model Require Import Num LexBins Train Predict Link Estimators WholeFit BinSmoothers.
From Verif.Spec Require Import DataSpec LexSpec PredictSpec InsampleSpec CellSpec PoissonCellSpec DispersedSpec.
From Verif.Proofs Require Import TrainExamples WholeExamples DescentExamples CellExamples PoissonCellExamples DispersedCell DispersedExamples.
Import ListNotations.
Local Open Scope R_scope.

(** Training of these data always succeeds. Without the criteria for early stopping it makes
    the configured number of passes. *)
Theorem C131_trains : forall gm bppf erfinv bad a c top tol g cfg rate D,
  median_near gm -> dispersed_data a c top tol g D -> (forall it i, 0 <= rate it i <= 1) -> g_smoother g = bin_values ->
  (c_hier cfg = false \/ g_hier g = true) -> c_log cfg = true -> c_aggregate cfg = true ->
  forall fuel, 0 < total_weight D -> c_hier cfg = false -> c_maxiter cfg <> 0%nat -> (c_maxiter cfg <= fuel)%nat ->
  c_minfactor cfg < 100 -> c_minloss cfg < IZR (10 ^ 20) ->
  exists t, whole_fit gm bppf erfinv bad (NBinomRegressor a c) false [g] cfg rate fuel D = Trained t /\
    exp (o_scale t) = total_target D / total_weight D + 1 / 1000 /\
    (c_minfactor cfg < 0 -> c_minloss cfg < 0 -> o_iterations t = c_maxiter cfg).
Proof. exact dispersed_trains. Qed.
Print Assumptions C131_trains.

(** ... and does not fail to converge with hierarchical groups either. *)
Theorem C131_never_diverges : forall gm bppf erfinv bad a c top tol g cfg rate D,
  median_near gm -> dispersed_data a c top tol g D -> (forall it i, 0 <= rate it i <= 1) -> g_smoother g = bin_values ->
  (c_hier cfg = false \/ g_hier g = true) -> c_log cfg = true -> c_aggregate cfg = true ->
  forall fuel, whole_fit gm bppf erfinv bad (NBinomRegressor a c) false [g] cfg rate fuel D <> Failed ConvergenceError.
Proof. exact dispersed_never_diverges. Qed.
Print Assumptions C131_never_diverges.

(** The prediction for a training row lies between the baseline and the mean target of its
    bin, up to 0.012 times the largest dispersion divided by the weight of the bin. *)
Theorem C131_between : forall gm bppf erfinv bad a c top tol g cfg rate D,
  median_near gm -> dispersed_data a c top tol g D -> (forall it i, 0 <= rate it i <= 1) -> g_smoother g = bin_values ->
  (c_hier cfg = false \/ g_hier g = true) -> c_log cfg = true -> c_aggregate cfg = true ->
  forall fuel t j s cell m p,
  whole_fit gm bppf erfinv bad (NBinomRegressor a c) false [g] cfg rate fuel D = Trained t ->
  nth_error D j = Some s -> cell_of D s cell -> cell_mean cell D m -> 0 < cell_weight cell D ->
  nth_error (whole_predict (NBinomRegressor a c) false t D) j = Some p ->
  let d := 12/1000 * dispersion a c top / cell_weight cell D in
  Rmin (exp (o_scale t)) (m - d) <= p <= Rmax (exp (o_scale t)) (m + d).
Proof. exact dispersed_between. Qed.
Print Assumptions C131_between.

(** With learning rates of at least [rho] and enough passes it comes to the mean target of
    the bin, as far as the limits of the factors allow: neither the prior of the estimates nor
    the dispersion, which changes from pass to pass with the predictions, matters any more. *)
Theorem C131_limit : forall gm bppf erfinv bad a c top tol g rate D,
  median_near gm -> dispersed_data a c top tol g D -> g_smoother g = bin_values ->
  forall rho, 0 < rho -> (forall it i, rho <= rate it i <= 1) -> forall j s cell m eps,
  nth_error D j = Some s -> cell_of D s cell -> cell_mean cell D m -> 0 < cell_weight cell D ->
  (g_mnl g = false \/ ~ missing_entry (x_bins s 0%nat)) -> 0 < eps ->
  exists enough, forall cfg fuel t p,
    (c_hier cfg = false \/ g_hier g = true) -> c_log cfg = true -> c_aggregate cfg = true ->
    whole_fit gm bppf erfinv bad (NBinomRegressor a c) false [g] cfg rate fuel D = Trained t ->
    (enough <= o_iterations t)%nat ->
    nth_error (whole_predict (NBinomRegressor a c) false t D) j = Some p ->
    Rabs (p - limited (smallest_factor (g_dim g) * exp (o_scale t)) (largest_factor (g_dim g) * exp (o_scale t)) m)
      <= 12/1000 * dispersion a c top / cell_weight cell D + eps.
Proof. exact dispersed_limit. Qed.
Print Assumptions C131_limit.

(** A row with a missing entry keeps the baseline if the group does not learn missing
    values. *)
Theorem C131_missing : forall gm bppf erfinv bad a c top tol g cfg rate D,
  median_near gm -> dispersed_data a c top tol g D -> (forall it i, 0 <= rate it i <= 1) -> g_smoother g = bin_values ->
  (c_hier cfg = false \/ g_hier g = true) -> c_log cfg = true -> c_aggregate cfg = true ->
  forall fuel t j s,
  whole_fit gm bppf erfinv bad (NBinomRegressor a c) false [g] cfg rate fuel D = Trained t ->
  nth_error D j = Some s -> g_mnl g = true -> missing_entry (x_bins s 0%nat) ->
  nth_error (whole_predict (NBinomRegressor a c) false t D) j = Some (exp (o_scale t)).
Proof. exact dispersed_missing. Qed.
Print Assumptions C131_missing.

(** [heavy_cells] holds if every row weighs at least 1 and the dispersion is moderate. *)
Theorem C131_heavy_cells : forall g a c top tol D, 0 < tol -> binned_rows [g] D -> Forall (fun s => 1 <= x_w s) D ->
  12/1000 * dispersion a c top <= tol -> heavy_cells a c top tol D.
Proof. exact heavy_if_full. Qed.
Print Assumptions C131_heavy_cells.

(** The hypotheses are met by four rows with the targets 0, 2 and 4, 6 in two bins and the
    variance m + m^2/2: the baseline is 3.001, and enough passes bring the prediction of the
    first bin to 1, up to 0.027. *)
Example c131_case : forall bppf erfinv bad,
  median_near third_below /\ dispersed_data 1 (1/2) 6 (1/10) plain_group counts /\ g_smoother plain_group = bin_values /\ g_mnl plain_group = false /\
  cell_of counts (w_row 0%Q 0 1) first_cell /\ cell_mean first_cell counts 1 /\ cell_weight first_cell counts = 2 /\
  forall eps, 0 < eps -> exists n t p,
    whole_fit third_below bppf erfinv bad (NBinomRegressor 1 (1/2)) false [plain_group] (l_cfg n) ex_rate n counts = Trained t /\
    exp (o_scale t) = 3001/1000 /\ nth_error (whole_predict (NBinomRegressor 1 (1/2)) false t counts) 0 = Some p /\ Rabs (p - 1) <= 27/1000 + eps.
Proof. exact dispersed_case. Qed.
