(** C140: a column that is the same in all training rows. *)
From Coq Require Import ZArith QArith List Bool Reals.
From Verif.Model Require Import Num Train Predict WholeFit BinSmoothers.
From Verif.Spec Require Import LexSpec HierSpec InsampleSpec InertSpec ConstantColumnSpec.
From Verif.Proofs Require Import TrainExamples WholeExamples DescentExamples CellExamples LocationCellExamples ConstantColumn SilentWhole ConstantColumnExamples ConstantStop.
Import ListNotations.
Local Open Scope R_scope.

(** Any training of the location regressor, with any number of feature groups, any smoothers,
    learning rates, stopping criteria, divergences and prior predictions. All rows of the
    training have the same bins [r] in group [n]. Then all predictions for rows with these bins
    are those of the estimator without the group.
    Missing: the other regressors (refuted below for one of them), groups that do not learn missing values
    while all their training rows have some (see C129), and trainings on rows of weight 0. *)
Theorem C140_location_partial : forall gm bppf erfinv bad prior gs cfg rate fuel D t n r,
  whole_fit gm bppf erfinv bad LocationRegressor prior gs cfg rate fuel D = Trained t ->
  c_log cfg = false -> binned_rows gs D -> D <> [] -> Forall (fun s => 0 < x_w s) D ->
  (forall i g, nth_error gs i = Some g -> g_mnl g = false \/ exists s, In s D /\ ~ missing_entry (x_bins s i)) ->
  (forall s, In s D -> x_bins s n = r) ->
  forall X, (forall s, In s X -> x_bins s n = r) ->
  whole_predict LocationRegressor prior t X = whole_predict LocationRegressor prior (model_without n t) (map (row_without n) X).
Proof. exact constant_column. Qed.
Print Assumptions C140_location_partial.

(** The training itself: unless the criterion of the factor change is used, the training of
    the location regressor without the constant column ends in the same way, after as many
    passes and with the same loss, and gives the same estimator except for the group.
    Missing: the criterion of the factor change (refuted below), and non-hierarchical groups that wait for the
    hierarchical ones in trainings with a diverging pass. *)
Theorem C140_training_partial : forall gm bppf erfinv bad prior gs cfg rate D n g,
  nth_error gs n = Some g -> forall r,
  c_log cfg = false -> binned_rows gs D -> D <> [] -> Forall (fun s => 0 < x_w s) D ->
  (g_mnl g = false \/ ~ missing_entry r) ->
  (forall s, In s D -> x_bins s n = r) ->
  let gs' := without n gs in
  let rate' := fun it j => rate it (place n j) in
  let D' := map (row_without n) D in
  forall fuel, c_minfactor cfg < 0 -> gs' <> [] ->
  (c_hier cfg = false \/ g_hier g = true \/ never_diverging gm bppf erfinv bad LocationRegressor prior gs' cfg rate' D') ->
  whole_fit gm bppf erfinv bad LocationRegressor prior gs' cfg rate' fuel D' =
  result_without n (whole_fit gm bppf erfinv bad LocationRegressor prior gs cfg rate fuel D).
Proof. exact constant_training. Qed.
Print Assumptions C140_training_partial.

(** With any stopping criteria, also that of the factor change, the same number of passes gives
    the same estimator except for the group. *)
Theorem C140_passes_partial : forall gm bppf erfinv bad prior gs cfg rate D n g,
  nth_error gs n = Some g -> forall r,
  c_log cfg = false -> binned_rows gs D -> D <> [] -> Forall (fun s => 0 < x_w s) D ->
  (g_mnl g = false \/ ~ missing_entry r) ->
  (forall s, In s D -> x_bins s n = r) ->
  let gs' := without n gs in
  let rate' := fun it j => rate it (place n j) in
  let D' := map (row_without n) D in
  forall fuel fuel' t t',
  whole_fit gm bppf erfinv bad LocationRegressor prior gs cfg rate fuel D = Trained t ->
  whole_fit gm bppf erfinv bad LocationRegressor prior gs' cfg rate' fuel' D' = Trained t' ->
  o_iterations t' = o_iterations t -> t' = model_without n t.
Proof. exact constant_passes. Qed.
Print Assumptions C140_passes_partial.

(** The criterion of the factor change compares the mean over all groups, to which the constant
    column contributes next to nothing: with it, the training ends after one pass, without it
    there are more. *)
Theorem C140_factor_change_refuted : forall gm bppf erfinv bad, exists t,
  whole_fit gm bppf erfinv bad LocationRegressor false [plain_group; plain_group] stop_cfg ex_rate 1 lc_constant = Trained t /\ o_iterations t = 1%nat /\
  whole_fit gm bppf erfinv bad LocationRegressor false [plain_group] stop_cfg ex_rate 1 (map (row_without 1) lc_constant) = MoreIterations.
Proof. exact constant_stops. Qed.
Print Assumptions C140_factor_change_refuted.

(** The background subtraction regressor does not centre its values: with bins 0 and 1 in one
    column and bin 0 of all rows in another one, the constant column adds 4/105 to every
    prediction, here 74/105 instead of 2/3. *)
Theorem C140_background_refuted : forall gm bppf erfinv bad, exists t,
  whole_fit gm bppf erfinv bad (GBSRegressor 0) false [plain_group; plain_group] (n_cfg 1) ex_rate 1 noisy_constant = Trained t /\
  (forall s, In s noisy_constant -> x_bins s 1%nat = [Fin 0]) /\
  nth_error (whole_predict (GBSRegressor 0) false t noisy_constant) 0 = Some (74/105) /\
  nth_error (whole_predict (GBSRegressor 0) false (model_without 1 t) (map (row_without 1) noisy_constant)) 0 = Some (2/3).
Proof. exact background_constant. Qed.
Print Assumptions C140_background_refuted.

(** Three rows with the targets 0, 2 and 10 in two bins of the first column, all in bin 0 of
    the second one. *)
Example C140_case : forall gm bppf erfinv bad, exists t,
  whole_fit gm bppf erfinv bad LocationRegressor false [plain_group; plain_group] (n_cfg 1) ex_rate 1 lc_constant = Trained t /\
  binned_rows [plain_group; plain_group] lc_constant /\ Forall (fun s => 0 < x_w s) lc_constant /\
  (forall s, In s lc_constant -> x_bins s 1%nat = [Fin 0]) /\
  whole_predict LocationRegressor false t lc_constant = whole_predict LocationRegressor false (model_without 1 t) (map (row_without 1) lc_constant) /\
  whole_fit gm bppf erfinv bad LocationRegressor false [plain_group] (n_cfg 1) ex_rate 1 (map (row_without 1) lc_constant) = Trained (model_without 1 t).
Proof. exact constant_case. Qed.
