(** Property C115: the order of the columns within a feature group. *)
From Coq Require Import ZArith NArith QArith List Bool Reals Permutation.
From Verif.Proofs Require Import TrainExamples WholeExamples RelabelExamples RefitExamples PipeExamples RecodeExamples ColumnOrderFit ColumnOrderExamples.
From Verif.Model Require Import Num Flags Ecdf BinTransform Frames LexBins Train Link Estimators WholeFit BinSmoothers Refit Pipe.
From Verif.Spec Require Import FrameSpec PipeSpec RelabelSpec RefitSpec ShuffleSpec ColumnOrderSpec.
Import ListNotations.

(** C115: name the columns of feature groups in another order.  The training ends with the
    same exception, if any, and otherwise with the same baseline, iterations, loss and
    predictions for every frame.  [has_prior]: prior predictions in [CBGBSRegressor] are
    left out. *)
Theorem C115_column_order : forall gm bppf erfinv bad k weight prior cfg rate accepted style b fuel o o' gl gl' X y e P1 e' P1',
  one_dimension_each style -> (has_prior prior = true -> forall a, k <> GBSRegressor a) ->
  b_groups o = Some gl -> b_groups o' = Some gl' -> (forall names, In names gl -> names <> []) -> groups_reordered style gl gl' ->
  pipe_fit gm bppf erfinv bad k weight prior cfg rate accepted style fuel {| l_binner := b; l_object := o |} X y = (e, P1) ->
  pipe_fit gm bppf erfinv bad k weight prior cfg rate accepted style fuel {| l_binner := b; l_object := o' |} X y = (e', P1') ->
  e = e' /\ (e = None ->
    b_scale (l_object P1') = b_scale (l_object P1) /\ b_iter (l_object P1') = b_iter (l_object P1) /\ b_loss (l_object P1') = b_loss (l_object P1) /\
    forall Y, pipe_predict k weight prior P1' Y = pipe_predict k weight prior P1 Y).
Proof. exact pipe_reordered. Qed.
Print Assumptions C115_column_order.

(** The same for estimators trained on bin numbers. *)
Theorem C115_estimators : forall gm bppf erfinv bad k cfg rate accepted style, one_dimension_each style ->
  forall prior fuel o o' gl gl' d, (prior = true -> forall a, k <> GBSRegressor a) ->
  b_groups o = Some gl -> b_groups o' = Some gl' -> (forall names, In names gl -> names <> []) -> groups_reordered style gl gl' ->
  let r := fit_object gm bppf erfinv bad k prior cfg rate accepted style fuel o d in
  let r' := fit_object gm bppf erfinv bad k prior cfg rate accepted style fuel o' d in
  fst r = fst r' /\ (fst r = None ->
    b_scale (snd r') = b_scale (snd r) /\ b_iter (snd r') = b_iter (snd r) /\ b_loss (snd r') = b_loss (snd r) /\
    forall X, predict_frame k prior (snd r') X = predict_frame k prior (snd r) X).
Proof. exact fit_reordered. Qed.
Print Assumptions C115_estimators.

(** The default smoothers of interactions, with categorical or ordered columns among
    them and with continuous columns only, and others. *)
Theorem C115_default : column_order_free default_unordered /\ column_order_free (normalised (weighted_mean_bins (Some 0%R))).
Proof. exact (conj default_order (normalised_order 0)). Qed.
Print Assumptions C115_default.
Theorem C115_smoothers : column_order_free bin_values /\ column_order_free explicit_mean /\
  (forall prior threshold, column_order_free (prior_expectation_bins prior threshold)) /\
  (forall s, ignores_centres s -> label_free_but_first s -> column_order_free s).
Proof. exact (conj bin_values_order (conj explicit_order (conj expectation_order order_free_of_labels))). Qed.
Print Assumptions C115_smoothers.

Example c115_hypotheses : one_dimension_each d_style /\ groups_reordered d_style [[c_a; c_b]; [c_a]] [[c_b; c_a]; [c_a]].
Proof. exact square_groups. Qed.
Example c115_runs : forall gm bppf erfinv bad,
  (exists P1, pipe_fit gm bppf erfinv bad LocationRegressor None None w_cfg ex_rate r_all v_style 1 ab_pipe square square_y = (None, P1) /\
     pipe_predict LocationRegressor None None P1 square = Some [1 / 1000; 1 / 1000 + cc; 1 / 1000 - cc; 1 / 1000]%R) /\
  exists P1, pipe_fit gm bppf erfinv bad LocationRegressor None None w_cfg ex_rate r_all v_style 1 ba_pipe square square_y = (None, P1) /\
     pipe_predict LocationRegressor None None P1 square = Some [1 / 1000; 1 / 1000 + cc; 1 / 1000 - cc; 1 / 1000]%R.
Proof. intros. exact (conj (square_run gm bppf erfinv bad) (square_run_reordered gm bppf erfinv bad)). Qed.
