(** Property C121: in a pipeline a row with weight n counts like n rows. *)
From Coq Require Import ZArith NArith QArith List Bool Reals.
From Verif.Proofs Require Import TrainExamples WholeExamples RefitExamples RepeatFacts RepeatExamples.
From Verif.Model Require Import Num Flags Ecdf BinTransform Frames LexBins Train Link Estimators WholeFit Refit Pipe.
From Verif.Spec Require Import FrameSpec PipeSpec DataSpec RefitSpec ShuffleSpec RepeatSpec.
Import ListNotations.

(** C121, for features without declared continuous columns: write every row of the
    training frame out as often as its weight says, in any order, with weight one.  The
    training of the pipeline ends with the same exception, if any, and otherwise with the
    same estimator and the same predictions for every frame.  [linear_kind]: the
    multiplicative regressors and the classifier.  Missing: continuous columns (refuted
    below) and the location models and CBGBSRegressor (for which C85 refutes it
    already without binning). *)
Theorem C121_copies_partial : forall gm bppf erfinv bad k w prior cfg rate accepted style,
  linear_kind k = true -> checks_targets accepted -> one_dimension_each style ->
  forall bins props inplace fuel o X y idx e P1 e' P1',
  no_continuous_column props -> undeclared props (Some w) -> prior <> Some w ->
  table X -> List.length y = List.length (fr_index X) -> every_row_listed (List.length (fr_index X)) idx ->
  column_is X w (times_listed (List.length (fr_index X)) idx) ->
  let fit := pipe_fit gm bppf erfinv bad k (Some w) prior cfg rate accepted style fuel
               {| l_binner := pipeline_binner bins props inplace; l_object := o |} in
  fit X y = (e, P1) -> fit (written_out w idx X) (take idx 0%R y) = (e', P1') ->
  e = e' /\
  (e = None -> same_model k (has_prior prior) (l_object P1') (l_object P1) /\
     forall Y, pipe_predict k (Some w) prior P1' Y = pipe_predict k (Some w) prior P1 Y).
Proof. exact pipe_written. Qed.
Print Assumptions C121_copies_partial.
Example c121_hypotheses : forall gm bppf erfinv bad,
  linear_kind BinaryClassifier = true /\ checks_targets r_all /\ one_dimension_each parted_style /\
  no_continuous_column (as_a 4) /\ undeclared (as_a 4) (Some c_w) /\ table three /\ List.length three_y = List.length (fr_index three) /\
  every_row_listed (List.length (fr_index three)) listed /\ column_is three c_w (times_listed (List.length (fr_index three)) listed) /\
  fr_cols (written_out c_w listed three) = [(c_a, [Fin 1; Fin 1; Fin 1; Fin 2; Fin 3]); (c_w, [Fin 1; Fin 1; Fin 1; Fin 1; Fin 1])] /\
  exists P1, pipe_fit gm bppf erfinv bad BinaryClassifier (Some c_w) None w_cfg ex_rate r_all parted_style 1
    {| l_binner := pipeline_binner three_bins (as_a 4) false; l_object := fresh [[c_a]] |} three three_y = (None, P1) /\
    exists u v t, (u < v < t)%R /\ pipe_predict BinaryClassifier (Some c_w) None P1 three = Some [u; v; t].
Proof. exact repeat_example. Qed.

(** Continuous columns: the pipelines do not pass the weight column on to the binning, so
    that rows written out move the bins and the predictions. *)
Theorem C121_continuous_refuted : forall gm bppf erfinv bad, exists k w cfg rate accepted style bins props inplace fuel o X y idx P1 P1',
  linear_kind k = true /\ checks_targets accepted /\ one_dimension_each style /\ undeclared props (Some w) /\
  table X /\ List.length y = List.length (fr_index X) /\ every_row_listed (List.length (fr_index X)) idx /\
  column_is X w (times_listed (List.length (fr_index X)) idx) /\
  pipe_fit gm bppf erfinv bad k (Some w) None cfg rate accepted style fuel {| l_binner := pipeline_binner bins props inplace; l_object := o |} X y = (None, P1) /\
  pipe_fit gm bppf erfinv bad k (Some w) None cfg rate accepted style fuel {| l_binner := pipeline_binner bins props inplace; l_object := o |}
    (written_out w idx X) (take idx 0%R y) = (None, P1') /\
  pipe_predict k (Some w) None P1' X <> pipe_predict k (Some w) None P1 X.
Proof. exact continuous_refuted. Qed.
Print Assumptions C121_continuous_refuted.

(** In this frame (values 1, 2, 3 with the weights 3, 1, 1, three bins) no estimator,
    setting or target can tell 2 from 3 once the rows are written out. *)
Theorem C121_written_bins : forall gm bppf erfinv bad k cfg rate accepted style inplace fuel o y P1',
  let fit := pipe_fit gm bppf erfinv bad k (Some c_w) None cfg rate accepted style fuel {| l_binner := pipeline_binner three_bins (as_a 1) inplace; l_object := o |} in
  let predict := pipe_predict k (Some c_w) None in
  fit (written_out c_w listed three) (take listed 0%R y) = (None, P1') ->
  predict P1' (one_row 2) = predict P1' (one_row 3).
Proof. exact bins_without_weights. Qed.
Print Assumptions C121_written_bins.
