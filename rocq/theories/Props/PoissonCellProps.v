(** C128: what a single feature group of the Poisson regressor learns. *)
From Coq Require Import ZArith QArith List Bool Reals.
From Verif.Model Require Import Num LexBins Train Predict Link Estimators WholeFit BinSmoothers.
From Verif.Spec Require Import DataSpec LexSpec PredictSpec InsampleSpec CellSpec PoissonCellSpec.
From Verif.Proofs Require Import TrainExamples WholeExamples DescentExamples CellExamples PoissonCell PoissonCellExamples.
Import ListNotations.
Local Open Scope R_scope.

(** Training of these data always succeeds. Without the criteria for early stopping it makes
    the configured number of passes. *)
Theorem C128_trains : forall gm bppf erfinv bad g cfg rate D,
  median_near gm -> poisson_data g D -> (forall it i, 0 <= rate it i <= 1) -> g_smoother g = bin_values ->
  (c_hier cfg = false \/ g_hier g = true) -> c_log cfg = true -> c_aggregate cfg = true ->
  forall fuel, 0 < total_weight D -> c_hier cfg = false -> c_maxiter cfg <> 0%nat -> (c_maxiter cfg <= fuel)%nat ->
  c_minfactor cfg < 100 -> c_minloss cfg < IZR (10 ^ 20) ->
  exists t, whole_fit gm bppf erfinv bad PoissonRegressor false [g] cfg rate fuel D = Trained t /\
    exp (o_scale t) = total_target D / total_weight D + 1 / 1000 /\
    (c_minfactor cfg < 0 -> c_minloss cfg < 0 -> o_iterations t = c_maxiter cfg).
Proof. exact trains. Qed.
Print Assumptions C128_trains.

(** ... and does not fail with hierarchical groups either. *)
Theorem C128_never_diverges : forall gm bppf erfinv bad g cfg rate D,
  median_near gm -> poisson_data g D -> (forall it i, 0 <= rate it i <= 1) -> g_smoother g = bin_values ->
  (c_hier cfg = false \/ g_hier g = true) -> c_log cfg = true -> c_aggregate cfg = true ->
  forall fuel, whole_fit gm bppf erfinv bad PoissonRegressor false [g] cfg rate fuel D <> Failed ConvergenceError.
Proof. exact never_diverges. Qed.
Print Assumptions C128_never_diverges.

(** The prediction for a training row lies between the baseline and the mean target of its
    bin, up to 0.012 divided by the weight of the bin. *)
Theorem C128_between : forall gm bppf erfinv bad g cfg rate D,
  median_near gm -> poisson_data g D -> (forall it i, 0 <= rate it i <= 1) -> g_smoother g = bin_values ->
  (c_hier cfg = false \/ g_hier g = true) -> c_log cfg = true -> c_aggregate cfg = true ->
  forall fuel t j s cell m p,
  whole_fit gm bppf erfinv bad PoissonRegressor false [g] cfg rate fuel D = Trained t ->
  nth_error D j = Some s -> cell_of D s cell -> cell_mean cell D m -> 0 < cell_weight cell D ->
  nth_error (whole_predict PoissonRegressor false t D) j = Some p ->
  Rmin (exp (o_scale t)) m - 12/1000 / cell_weight cell D <= p <= Rmax (exp (o_scale t)) m + 12/1000 / cell_weight cell D.
Proof. exact between_up_to. Qed.
Print Assumptions C128_between.

(** With learning rates of at least [rho] and enough passes it comes to the mean target of
    the bin, as far as the limits of the factors allow: the prior of the estimates does not
    matter any more. *)
Theorem C128_limit : forall gm bppf erfinv bad g rate D,
  median_near gm -> poisson_data g D -> g_smoother g = bin_values ->
  forall rho, 0 < rho -> (forall it i, rho <= rate it i <= 1) -> forall j s cell m eps,
  nth_error D j = Some s -> cell_of D s cell -> cell_mean cell D m -> 0 < cell_weight cell D ->
  (g_mnl g = false \/ ~ missing_entry (x_bins s 0%nat)) -> 0 < eps ->
  exists enough, forall cfg fuel t p,
    (c_hier cfg = false \/ g_hier g = true) -> c_log cfg = true -> c_aggregate cfg = true ->
    whole_fit gm bppf erfinv bad PoissonRegressor false [g] cfg rate fuel D = Trained t ->
    (enough <= o_iterations t)%nat ->
    nth_error (whole_predict PoissonRegressor false t D) j = Some p ->
    Rabs (p - limited (smallest_factor (g_dim g) * exp (o_scale t)) (largest_factor (g_dim g) * exp (o_scale t)) m)
      <= 12/1000 / cell_weight cell D + eps.
Proof. exact poisson_limit. Qed.
Print Assumptions C128_limit.

(** A row with a missing entry keeps the baseline if the group does not learn missing
    values. *)
Theorem C128_missing : forall gm bppf erfinv bad g cfg rate D,
  median_near gm -> poisson_data g D -> (forall it i, 0 <= rate it i <= 1) -> g_smoother g = bin_values ->
  (c_hier cfg = false \/ g_hier g = true) -> c_log cfg = true -> c_aggregate cfg = true ->
  forall fuel t j s,
  whole_fit gm bppf erfinv bad PoissonRegressor false [g] cfg rate fuel D = Trained t ->
  nth_error D j = Some s -> g_mnl g = true -> missing_entry (x_bins s 0%nat) ->
  nth_error (whole_predict PoissonRegressor false t D) j = Some (exp (o_scale t)).
Proof. exact poisson_missing. Qed.
Print Assumptions C128_missing.

(** [full_cells] holds if every row weighs at least 1. *)
Theorem C128_full_cells : forall g D, binned_rows [g] D -> Forall (fun s => 1 <= x_w s) D -> full_cells D.
Proof. exact full_if_heavy. Qed.
Print Assumptions C128_full_cells.

(** The hypotheses are met by four rows with the targets 0, 2 and 4, 6 in two bins: the
    baseline is 3.001, and enough passes bring the prediction of the first bin to 1. *)
Example c128_case : forall bppf erfinv bad,
  median_near third_below /\ poisson_data plain_group counts /\ g_smoother plain_group = bin_values /\ g_mnl plain_group = false /\
  cell_of counts (w_row 0%Q 0 1) first_cell /\ cell_mean first_cell counts 1 /\ cell_weight first_cell counts = 2 /\
  forall eps, 0 < eps -> exists n t p,
    whole_fit third_below bppf erfinv bad PoissonRegressor false [plain_group] (l_cfg n) ex_rate n counts = Trained t /\
    exp (o_scale t) = 3001/1000 /\ nth_error (whole_predict PoissonRegressor false t counts) 0 = Some p /\ Rabs (p - 1) <= 6/1000 + eps.
Proof. exact poisson_case. Qed.
