(** C130: a constant dispersion of the negative binomial regressor; C29 for whole trainings. *)
From Coq Require Import ZArith QArith List Bool Reals.
From Verif.Model Require Import Num LexBins Train Predict Link Estimators WholeFit BinSmoothers.
From Verif.Spec Require Import DataSpec LexSpec PredictSpec InsampleSpec CellSpec PoissonCellSpec LighterSpec.
From Verif.Proofs Require Import TrainExamples WholeExamples DescentExamples CellExamples PoissonCell PoissonCellExamples LighterFacts LighterExamples.
Import ListNotations.
Local Open Scope R_scope.

(** ** C29 *)
(** With the default parameters the negative binomial regressor is trained like the Poisson
    regressor, with any feature groups, smoothers, settings and data. *)
Theorem C29_whole_training : forall gm bppf erfinv bad prior gs cfg rate fuel D,
  whole_fit gm bppf erfinv bad (NBinomRegressor 1 0) prior gs cfg rate fuel D = whole_fit gm bppf erfinv bad PoissonRegressor prior gs cfg rate fuel D.
Proof. exact default_is_poisson. Qed.
Print Assumptions C29_whole_training.

(** ** C130 *)
(** The parameter [a] acts like a divisor of the weights. *)
Theorem C130_divisor : forall gm bppf erfinv bad a, 0 < a -> forall prior gs cfg rate fuel D,
  Forall (unmoved_by a) gs ->
  whole_fit gm bppf erfinv bad (NBinomRegressor a 0) prior gs cfg rate fuel D =
  whole_fit gm bppf erfinv bad PoissonRegressor prior gs cfg rate fuel (map (lighter a) D).
Proof. exact lighter_fit. Qed.
Print Assumptions C130_divisor.

(** The default smoother of unordered columns looks at the ratios of the weights only. *)
Theorem C130_default_smoother : forall a, 0 < a -> forall g, g_smoother g = default_unordered -> unmoved_by a g.
Proof. intros a A g E c w u v b. rewrite E. exact (unmoved_default a A c w u v b). Qed.
Print Assumptions C130_default_smoother.

(** A single group without smoothing learns the mean target of each bin as well, the less
    exactly the larger [a] is. *)
Theorem C130_limit : forall gm bppf erfinv bad a, 0 < a -> forall g rate D,
  median_near gm -> poisson_data g (map (lighter a) D) -> g_smoother g = bin_values ->
  forall rho, 0 < rho -> (forall it i, rho <= rate it i <= 1) -> forall j s cell m eps,
  nth_error D j = Some s -> cell_of D s cell -> cell_mean cell D m -> 0 < cell_weight cell D ->
  (g_mnl g = false \/ ~ missing_entry (x_bins s 0%nat)) -> 0 < eps ->
  exists enough, forall cfg fuel t p,
    (c_hier cfg = false \/ g_hier g = true) -> c_log cfg = true -> c_aggregate cfg = true ->
    whole_fit gm bppf erfinv bad (NBinomRegressor a 0) false [g] cfg rate fuel D = Trained t ->
    (enough <= o_iterations t)%nat ->
    nth_error (whole_predict (NBinomRegressor a 0) false t D) j = Some p ->
    Rabs (p - limited (smallest_factor (g_dim g) * exp (o_scale t)) (largest_factor (g_dim g) * exp (o_scale t)) m)
      <= 12/1000 * a / cell_weight cell D + eps.
Proof. exact nbinom_limit. Qed.
Print Assumptions C130_limit.

(** The hypotheses are met for a = 1/2 by the rows of C128. *)
Example c130_case : forall bppf erfinv bad n, n <> 0%nat ->
  Forall (unmoved_by (1/2)) [plain_group; default_group] /\ median_near third_below /\ poisson_data plain_group (map (lighter (1/2)) counts) /\
  cell_of counts (w_row 0%Q 0 1) first_cell /\ cell_mean first_cell counts 1 /\ cell_weight first_cell counts = 2 /\
  exists t, whole_fit third_below bppf erfinv bad (NBinomRegressor (1/2) 0) false [plain_group] (l_cfg n) ex_rate n counts = Trained t /\ o_iterations t = n.
Proof. exact dispersed_case. Qed.
