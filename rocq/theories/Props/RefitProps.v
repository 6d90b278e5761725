(** C100, C101: several trainings of one estimator; the order of the columns. *)
From Coq Require Import ZArith QArith List Bool Reals String Permutation.
From Verif.Model Require Import Num LexBins Train Predict Link Estimators WholeFit Frames Importance Diagnostics Refit.
From Verif.Spec Require Import RefitSpec.
From Verif.Proofs Require Import TrainExamples WholeExamples BinFitExamples.
From Verif.Model Require Import Refit.
From Verif.Proofs Require Import RefitFacts RefitExamples.
Import ListNotations.
Local Open Scope R_scope.

(** ** C100 *)
(** The full property: after any trainings, [fit] gives the same as for a new estimator
    with the same settings. With given feature groups this holds for the outcome, the
    baseline, the number of iterations, the loss and all predictions. Missing: the
    importances, the records of observers, and default feature groups, which are refuted
    below. ([CBGBSRegressor] cannot be given a prior prediction column.) *)
Theorem C100_history_partial : forall gm bppf erfinv bad k prior cfg rate accepted style,
  (prior = true -> forall a, k <> GBSRegressor a) ->
  forall fuel history observers gl d,
  let fit := fit_object gm bppf erfinv bad k prior cfg rate accepted style fuel in
  let o := trained_on fit history (new_object (Some gl) observers) in
  fst (fit o d) = fst (fit (fresh gl) d) /\
  (fst (fit (fresh gl) d) = None -> same_model k prior (snd (fit o d)) (snd (fit (fresh gl) d))).
Proof. exact history_same. Qed.
Print Assumptions C100_history_partial.
(** Indeed for any state in which the object may be left. *)
Theorem C100_any_state_partial : forall gm bppf erfinv bad k prior cfg rate accepted style,
  (prior = true -> forall a, k <> GBSRegressor a) ->
  forall fuel o gl d, b_groups o = Some gl ->
  let fit := fit_object gm bppf erfinv bad k prior cfg rate accepted style fuel in
  fst (fit o d) = fst (fit (fresh gl) d) /\
  (fst (fit (fresh gl) d) = None -> same_model k prior (snd (fit o d)) (snd (fit (fresh gl) d))).
Proof. exact refit_same. Qed.
Print Assumptions C100_any_state_partial.
(** The outcome is that of the training as a function of settings and data, and the
    predictions are those of its model. *)
Theorem C100_whole_partial : forall gm bppf erfinv bad k prior cfg rate accepted style,
  (prior = true -> forall a, k <> GBSRegressor a) ->
  forall fuel o gl d columns m X rows, b_groups o = Some gl -> accepted (d_targets d) = true ->
  read_groups (d_cols d) gl = Some columns ->
  whole_fit gm bppf erfinv bad k prior (map style gl) cfg rate fuel (data_rows columns (d_targets d)) = Trained m ->
  read_groups (d_cols X) gl = Some rows ->
  predict_frame k prior (snd (fit_object gm bppf erfinv bad k prior cfg rate accepted style fuel o d)) X =
    Some (whole_predict k prior m (data_rows rows (d_targets X))).
Proof. exact predict_is_whole. Qed.
Print Assumptions C100_whole_partial.
Example c100_again : forall gm bppf erfinv bad,
  fst (fit_object gm bppf erfinv bad g_kind false w_cfg ex_rate r_all r_style 1 (fresh [[c_a]]) frame_a) = None /\
  fst (fit_object gm bppf erfinv bad g_kind false w_cfg ex_rate r_all r_style 1
    (snd (fit_object gm bppf erfinv bad g_kind false w_cfg ex_rate r_all r_style 1 (fresh [[c_a]]) frame_a)) frame_a) = None.
Proof. exact again. Qed.

(** Without given feature groups, the columns of the first data set that passes the checks
    are the features of all later trainings. *)
Theorem C100_default_groups_always_refuted : forall gm bppf erfinv bad k prior cfg rate accepted style,
  (prior = true -> forall a, k <> GBSRegressor a) ->
  forall fuel observers first rest d, accepted (d_targets first) = true ->
  let fit := fit_object gm bppf erfinv bad k prior cfg rate accepted style fuel in
  let o := trained_on fit (first :: rest) (new_object None observers) in
  fst (fit o d) = fst (fit (fresh (one_each first)) d) /\
  (fst (fit (fresh (one_each first)) d) = None -> same_model k prior (snd (fit o d)) (snd (fit (fresh (one_each first)) d))).
Proof. exact first_frame_decides. Qed.
Print Assumptions C100_default_groups_always_refuted.
Theorem C100_new_column_refuted : forall gm bppf erfinv bad,
  let fit := fit_object gm bppf erfinv bad g_kind false w_cfg ex_rate r_all r_style 1 in
  fst (fit (new_object None []) frame_a) = None /\ fst (fit (new_object None []) frame_ab) = None /\
  predict_frame g_kind false (snd (fit (new_object None []) frame_ab)) (row_ab 0 0) = Some [3/4] /\
  fst (fit (snd (fit (new_object None []) frame_a)) frame_ab) = None /\
  predict_frame g_kind false (snd (fit (snd (fit (new_object None []) frame_a)) frame_ab)) (row_ab 0 0) = Some [1/2].
Proof. exact new_column. Qed.
Print Assumptions C100_new_column_refuted.
Theorem C100_gone_column_refuted : forall gm bppf erfinv bad,
  let fit := fit_object gm bppf erfinv bad g_kind false w_cfg ex_rate r_all r_style 1 in
  fst (fit (new_object None []) frame_a) = None /\
  fst (fit (snd (fit (new_object None []) frame_ab)) frame_a) = Some MissingColumn.
Proof. exact gone_column. Qed.
Print Assumptions C100_gone_column_refuted.

(** An observer appends the records of the new training to those of the earlier ones. *)
Theorem C100_records_always_refuted : forall gm bppf erfinv bad k prior cfg rate accepted style,
  (prior = true -> forall a, k <> GBSRegressor a) ->
  forall fuel o gl d wanted r,
  let fit := fit_object gm bppf erfinv bad k prior cfg rate accepted style fuel in
  b_groups o = Some gl -> b_records o = [(wanted, r)] -> fst (fit o d) = None ->
  exists r' joint, b_records (snd (fit (new_object (Some gl) [(wanted, new_record)]) d)) = [(wanted, r')] /\
    b_records (snd (fit o d)) = [(wanted, joint)] /\ continued r r' joint.
Proof. exact records_continue. Qed.
Print Assumptions C100_records_always_refuted.
(** The importances of a second training on the same data are halved. *)
Theorem C100_importances_always_refuted : forall gm bppf erfinv bad k prior cfg rate accepted style fuel gl d names shares,
  let fit := fit_object gm bppf erfinv bad k prior cfg rate accepted style fuel in
  (prior = true -> forall a, k <> GBSRegressor a) -> fst (fit (fresh gl) d) = None ->
  let once := snd (fit (fresh gl) d) in
  map (fun e => joined "_" (fst e)) (b_importances once) = map Some names -> NoDup names ->
  get_feature_importances (b_importances once) = Importances shares -> sumR (map snd shares) = 1 ->
  get_feature_importances (b_importances (snd (fit once d))) = Importances (map (fun e => (fst e, snd e / 2)) shares).
Proof. exact shares_halved. Qed.
Print Assumptions C100_importances_always_refuted.
Example c100_halved : forall gm bppf erfinv bad,
  let fit := fit_object gm bppf erfinv bad g_kind false w_cfg ex_rate r_all r_style 1 in
  get_feature_importances (b_importances (snd (fit (fresh [[c_a]]) frame_a))) = Importances [("a"%string, 1)] /\
  get_feature_importances (b_importances (snd (fit (snd (fit (fresh [[c_a]]) frame_a)) frame_a))) = Importances [("a"%string, 1 / 2)].
Proof. exact halved. Qed.

(** ** C101 *)
(** With given feature groups, the order of the columns has no effect on [fit] and
    [predict]. Missing: default feature groups, refuted below. *)
Theorem C101_fit_partial : forall gm bppf erfinv bad k prior cfg rate accepted style fuel o gl d cols, b_groups o = Some gl ->
  NoDup (map fst (d_cols d)) -> Permutation (d_cols d) cols ->
  fit_object gm bppf erfinv bad k prior cfg rate accepted style fuel o (with_columns d cols) =
  fit_object gm bppf erfinv bad k prior cfg rate accepted style fuel o d.
Proof. exact fit_permuted. Qed.
Print Assumptions C101_fit_partial.
Theorem C101_predict : forall k prior o X cols, NoDup (map fst (d_cols X)) -> Permutation (d_cols X) cols ->
  predict_frame k prior o (with_columns X cols) = predict_frame k prior o X.
Proof. exact predict_permuted. Qed.
Print Assumptions C101_predict.
(** Without given feature groups the columns are the features in their order, and
    training depends on it. *)
Theorem C101_default_groups_refuted : forall gm bppf erfinv bad,
  let fit := fit_object gm bppf erfinv bad g_kind false w_cfg ex_rate r_all r_style 1 in
  frame_ba = with_columns frame_ab (d_cols frame_ba) /\ Permutation (d_cols frame_ab) (d_cols frame_ba) /\
  fst (fit (new_object None []) frame_ab) = None /\ fst (fit (new_object None []) frame_ba) = None /\
  predict_frame g_kind false (snd (fit (new_object None []) frame_ab)) (row_ab 0 1) = Some [1/4] /\
  predict_frame g_kind false (snd (fit (new_object None []) frame_ba)) (row_ab 0 1) = Some [-(1/4)].
Proof. exact column_order. Qed.
Print Assumptions C101_default_groups_refuted.
Example c101_frames : NoDup (map fst (d_cols frame_ab)) /\ Permutation (d_cols frame_ab) (d_cols frame_ba).
Proof. exact ab_ba. Qed.
