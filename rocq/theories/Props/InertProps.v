(** C129: a feature group without any value in the training data. *)
From Coq Require Import ZArith QArith List Bool Reals.
From Verif.Model Require Import Num Train Predict WholeFit BinSmoothers.
From Verif.Spec Require Import LexSpec HierSpec PoissonCellSpec InertSpec.
From Verif.Proofs Require Import TrainExamples WholeExamples DescentExamples PoissonCellExamples InertWhole InertExamples InertPoisson.
Import ListNotations.
Local Open Scope R_scope.

(** Group number [n] does not learn missing values, and every training row has a missing entry
    in it. Then the training with the group and the training without it end alike, and the
    trained estimators differ only in that group and predict the same for all rows.
    Missing: the criterion of the factor change (refuted below), and the multiplicative
    regressors after a pass that counts as divergence. *)
Theorem C129_same_training_partial : forall gm bppf erfinv bad k prior gs cfg rate D n g,
  nth_error gs n = Some g -> g_mnl g = true -> (1 <= g_dim g)%nat -> no_values n D ->
  let gs' := without n gs in
  let rate' := fun it j => rate it (place n j) in
  let D' := map (row_without n) D in
  (c_log cfg && c_aggregate cfg = false \/ never_diverging gm bppf erfinv bad k prior gs' cfg rate' D') ->
  forall fuel, c_minfactor cfg < 0 -> gs' <> [] ->
  (c_hier cfg = false \/ g_hier g = true \/ never_diverging gm bppf erfinv bad k prior gs' cfg rate' D') ->
  same_result n k prior (whole_fit gm bppf erfinv bad k prior gs cfg rate fuel D) (whole_fit gm bppf erfinv bad k prior gs' cfg rate' fuel D').
Proof. exact same_training. Qed.
Print Assumptions C129_same_training_partial.

(** With any stopping criteria, the same number of passes gives the same estimator. *)
Theorem C129_same_passes_partial : forall gm bppf erfinv bad k prior gs cfg rate D n g,
  nth_error gs n = Some g -> g_mnl g = true -> (1 <= g_dim g)%nat -> no_values n D ->
  let gs' := without n gs in
  let rate' := fun it j => rate it (place n j) in
  let D' := map (row_without n) D in
  (c_log cfg && c_aggregate cfg = false \/ never_diverging gm bppf erfinv bad k prior gs' cfg rate' D') ->
  forall fuel fuel' t t',
  whole_fit gm bppf erfinv bad k prior gs cfg rate fuel D = Trained t ->
  whole_fit gm bppf erfinv bad k prior gs' cfg rate' fuel' D' = Trained t' ->
  o_iterations t' = o_iterations t -> same_but n k prior t t'.
Proof. exact same_passes. Qed.
Print Assumptions C129_same_passes_partial.

(** The Poisson regressor with a single group next to the empty one never diverges with the
    data of C128, so nothing needs to be assumed about divergence. *)
Theorem C129_poisson_partial : forall gm bppf erfinv bad g e cfg rate D,
  median_near gm -> poisson_data g (map (row_without 1) D) ->
  (forall it i, 0 <= rate it i <= 1) -> g_smoother g = bin_values -> (c_hier cfg = false \/ g_hier g = true) ->
  c_log cfg = true -> c_aggregate cfg = true -> c_minfactor cfg < 0 ->
  g_mnl e = true -> (1 <= g_dim e)%nat -> no_values 1 D ->
  forall fuel, same_result 1 PoissonRegressor false (whole_fit gm bppf erfinv bad PoissonRegressor false [g; e] cfg rate fuel D)
    (whole_fit gm bppf erfinv bad PoissonRegressor false [g] cfg (fun it j => rate it (place 1 j)) fuel (map (row_without 1) D)).
Proof. exact poisson_alone. Qed.
Print Assumptions C129_poisson_partial.

(** But the criterion of the factor change compares the mean over all groups, to which the
    empty group contributes 0: with it, the training ends earlier, here after one pass instead
    of two, and predicts 2/3 instead of 8/9. *)
Theorem C129_factor_change_refuted : forall gm bppf erfinv bad, exists cfg t t',
  c_log cfg = false /\ c_hier cfg = false /\ 0 < c_minfactor cfg /\
  whole_fit gm bppf erfinv bad (GBSRegressor 0) false [plain_group; empty_group] cfg ex_rate 2 with_empty = Trained t /\
  whole_fit gm bppf erfinv bad (GBSRegressor 0) false [plain_group] cfg ex_rate 2 (map (row_without 1) with_empty) = Trained t' /\
  o_iterations t = 1%nat /\ o_iterations t' = 2%nat /\
  nth_error (whole_predict (GBSRegressor 0) false t with_empty) 0 = Some (2/3) /\
  nth_error (whole_predict (GBSRegressor 0) false t' (map (row_without 1) with_empty)) 0 = Some (8/9).
Proof. exact empty_group_matters. Qed.
Print Assumptions C129_factor_change_refuted.

(** The hypotheses are met by the same data without that criterion. *)
Example c129_case : forall gm bppf erfinv bad,
  nth_error [plain_group; empty_group] 1 = Some empty_group /\ g_mnl empty_group = true /\ (1 <= g_dim empty_group)%nat /\
  no_values 1 with_empty /\ without 1 [plain_group; empty_group] <> [] /\ c_log (e_cfg (-1)) = false /\ c_hier (e_cfg (-1)) = false /\ c_minfactor (e_cfg (-1)) < 0 /\
  exists t', whole_fit gm bppf erfinv bad (GBSRegressor 0) false (without 1 [plain_group; empty_group]) (e_cfg (-1)) ex_rate 2 (map (row_without 1) with_empty) = Trained t' /\
    nth_error (whole_predict (GBSRegressor 0) false t' (map (row_without 1) with_empty)) 0 = Some (8/9).
Proof. exact empty_case. Qed.
Example c129_poisson_case : forall bppf erfinv bad n, n <> 0%nat ->
  median_near third_below /\ poisson_data plain_group (map (row_without 1) counts_empty) /\ no_values 1 counts_empty /\
  exists t, whole_fit third_below bppf erfinv bad PoissonRegressor false [plain_group; empty_group] (l_cfg n) ex_rate n counts_empty = Trained t /\ o_iterations t = n.
Proof. exact poisson_empty_case. Qed.
