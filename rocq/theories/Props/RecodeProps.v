(** Properties C111 and C104: recoding the categories of a column of the data frame. *)
From Coq Require Import ZArith NArith QArith List Bool Reals.
From Verif.Proofs Require Import TrainExamples WholeExamples RelabelExamples RefitExamples PipeExamples RecodePipe RecodeExamples RecodeOrder RecodeOrderExamples.
From Verif.Model Require Import Num Flags Ecdf BinTransform Frames LexBins Train Link Estimators WholeFit BinSmoothers Refit Pipe.
From Verif.Spec Require Import FrameSpec PipeSpec RelabelSpec RefitSpec ShuffleSpec RecodeSpec.
Import ListNotations.

(** C111: give the categories of column [c] other codes, one to one, in the training frame
    and in the frames to predict.  The training of the pipeline ends with the same
    exception, if any, and otherwise with the same baseline, iterations, loss and
    predictions; new categories and missing values included.  In interactions each
    category is seen together with known values of the other columns.  The smoothers
    treat all bins alike, or all but the first, in which case the smallest code stays
    with its category (C87 tells which smoothers these are; the default smoother treats all
    bins alike).  [has_prior]: prior predictions in [CBGBSRegressor] are left out. *)
Theorem C111_recoding : forall gm bppf erfinv bad k weight prior cfg rate accepted style,
  one_dimension_each style ->
  forall bins props inplace fuel o c f X y t e P1 e' P1',
  categorical_column props c -> one_to_one f -> (2 <= bins c)%Z -> weight <> Some c -> prior <> Some c ->
  (has_prior prior = true -> forall a, k <> GBSRegressor a) ->
  table X -> column_is X c t -> codes_or_missing t -> List.length y = List.length (fr_index X) ->
  (forall names, group_with o c names ->
     (names = [c] \/ seen_together (pipeline_binner bins props inplace) X names c t) /\
     (label_free (g_smoother (style names)) \/ label_free_but_first (g_smoother (style names)) /\ keeps_first f t)) ->
  let fit := pipe_fit gm bppf erfinv bad k weight prior cfg rate accepted style fuel
               {| l_binner := pipeline_binner bins props inplace; l_object := o |} in
  fit X y = (e, P1) -> fit (rescaled c f X) y = (e', P1') ->
  e = e' /\
  (e = None ->
     b_scale (l_object P1') = b_scale (l_object P1) /\ b_iter (l_object P1') = b_iter (l_object P1) /\ b_loss (l_object P1') = b_loss (l_object P1) /\
     forall Y, table Y -> (forall x v, column_is Y c x -> In v x -> known_or_new f t v) ->
       pipe_predict k weight prior P1' (rescaled c f Y) = pipe_predict k weight prior P1 Y).
Proof. exact pipe_recoded. Qed.
Print Assumptions C111_recoding.
Example c111_hypotheses : forall gm bppf erfinv bad,
  one_dimension_each d_style /\ categorical_column codes_a c_a /\ one_to_one (swap_q 0 1) /\ (2 <= two_bins c_a)%Z /\ table codes /\
  column_is codes c_a [Fin 0; Fin 1; Fin 2] /\ codes_or_missing [Fin 0; Fin 1; Fin 2] /\ rescaled c_a (swap_q 0 1) codes <> codes /\
  (forall names, group_with (fresh [[c_a]]) c_a names ->
     (names = [c_a] \/ seen_together (pipeline_binner two_bins codes_a false) codes names c_a [Fin 0; Fin 1; Fin 2]) /\
     (label_free (g_smoother (d_style names)) \/ label_free_but_first (g_smoother (d_style names)) /\ keeps_first (swap_q 0 1) [Fin 0; Fin 1; Fin 2]) /\
     g_smoother (d_style names) = default_unordered) /\
  (forall x v, column_is codes c_a x -> In v x -> known_or_new (swap_q 0 1) [Fin 0; Fin 1; Fin 2] v) /\
  exists P1, pipe_fit gm bppf erfinv bad LocationRegressor None None w_cfg ex_rate r_all d_style 1 c_pipe codes c_y = (None, P1) /\
    pipe_predict LocationRegressor None None P1 codes = Some [1 / 1000; 1 / 1000 + shrink * cc; 1 / 1000 - shrink * cc]%R.
Proof. exact recode_example. Qed.
Example c111_together : seen_together (pipeline_binner two_bins all_codes false) two_codes [c_a; c_b] c_a [Fin 3; Fin 5].
Proof. exact two_codes_together. Qed.

(** With an explicitly configured WeightedMeanSmoother without prior prediction and
    without normalisation, codes that move the smallest can change the predictions. *)
Theorem C111_explicit_mean_depends_on_first : forall gm bppf erfinv bad,
  exists k weight prior cfg rate accepted style bins props inplace fuel o c f X y t P1 P1',
  one_dimension_each style /\ categorical_column props c /\ one_to_one f /\ (2 <= bins c)%Z /\ weight <> Some c /\ prior <> Some c /\
  has_prior prior = false /\ table X /\ column_is X c t /\ codes_or_missing t /\ List.length y = List.length (fr_index X) /\
  (forall names, group_with o c names -> names = [c] /\ g_smoother (style names) = explicit_mean) /\
  pipe_fit gm bppf erfinv bad k weight prior cfg rate accepted style fuel {| l_binner := pipeline_binner bins props inplace; l_object := o |} X y = (None, P1) /\
  pipe_fit gm bppf erfinv bad k weight prior cfg rate accepted style fuel {| l_binner := pipeline_binner bins props inplace; l_object := o |} (rescaled c f X) y = (None, P1') /\
  pipe_predict k weight prior P1' (rescaled c f X) <> pipe_predict k weight prior P1 X.
Proof. exact recode_explicit. Qed.
Print Assumptions C111_explicit_mean_depends_on_first.

(** C104 for categorical columns: other codes in the same order give the same estimator,
    whatever its kind, groups and smoothers, and the same predictions; known, new and
    missing categories included. *)
Theorem C104_categories : forall gm bppf erfinv bad k weight prior cfg rate accepted style bins props inplace c f X t,
  categorical_column props c -> order_preserving f -> table X -> column_is X c t -> codes_or_missing t ->
  forall fuel o y e P1 e' P1',
  let fit := pipe_fit gm bppf erfinv bad k weight prior cfg rate accepted style fuel
               {| l_binner := pipeline_binner bins props inplace; l_object := o |} in
  fit X y = (e, P1) -> fit (rescaled c f X) y = (e', P1') ->
  e = e' /\ l_object P1 = l_object P1' /\
  (e = None -> forall Y, table Y -> (forall x v, column_is Y c x -> In v x -> known_or_new f t v) ->
     pipe_predict k weight prior P1' (rescaled c f Y) = pipe_predict k weight prior P1 Y).
Proof. exact categories_pipe. Qed.
Print Assumptions C104_categories.
Example c104_categories : forall gm bppf erfinv bad,
  categorical_column codes_a c_a /\ order_preserving (fun q => q * q * q)%Q /\ table codes /\
  column_is codes c_a [Fin 0; Fin 1; Fin 2] /\ codes_or_missing [Fin 0; Fin 1; Fin 2] /\
  rescaled c_a (fun q => q * q * q)%Q codes <> codes /\
  (forall v, In v [Fin 0; Fin 1; Fin 2; NaN; Fin 20] -> known_or_new (fun q => q * q * q)%Q [Fin 0; Fin 1; Fin 2] v) /\
  (exists P1, pipe_fit gm bppf erfinv bad LocationRegressor None None w_cfg ex_rate r_all d_style 1 c_pipe codes c_y = (None, P1) /\
    pipe_predict LocationRegressor None None P1 codes = Some [1 / 1000; 1 / 1000 + shrink * cc; 1 / 1000 - shrink * cc]%R).
Proof. exact categories_example. Qed.
