(** Property C84 for whole pipelines. *)
From Coq Require Import ZArith NArith QArith List Bool Reals Permutation.
From Verif.Model Require Import Num Flags Ecdf BinTransform Frames LexBins Train Link Estimators WholeFit Refit Pipe.
From Verif.Spec Require Import FrameSpec RefitSpec ShuffleSpec.
From Verif.Proofs Require Import TrainExamples WholeExamples RefitExamples PipeExamples ShuffleFacts ShuffleExamples.
Import ListNotations.

(** C84: shuffle the rows of the training frame and the targets alike.  The training of
    the pipeline ends with the same exception, if any, and otherwise with an estimator of
    the same scale, iterations, loss and predictions; the pipelines give the same answer
    for every frame.  [has_prior]: prior predictions in [CBGBSRegressor] are left out. *)
Theorem C84_pipeline : forall gm bppf erfinv bad k weight prior cfg rate accepted style,
  treats_rows_alike accepted -> one_dimension_each style ->
  forall bins props inplace fuel o X y idx e P1 e' P1',
  (has_prior prior = true -> forall a, k <> GBSRegressor a) ->
  table X -> List.length y = List.length (fr_index X) -> order_of_rows (List.length (fr_index X)) idx ->
  let fit := pipe_fit gm bppf erfinv bad k weight prior cfg rate accepted style fuel
               {| l_binner := pipeline_binner bins props inplace; l_object := o |} in
  fit X y = (e, P1) -> fit (take_rows idx X) (take idx 0%R y) = (e', P1') ->
  e = e' /\
  (e = None -> same_model k (has_prior prior) (l_object P1') (l_object P1) /\
     forall Y, pipe_predict k weight prior P1' Y = pipe_predict k weight prior P1 Y).
Proof. exact pipe_shuffled. Qed.
Print Assumptions C84_pipeline.
Example c84_pipeline_hypotheses : forall gm bppf erfinv bad,
  treats_rows_alike r_all /\ one_dimension_each r_style /\ table (raw one_one) /\ order_of_rows 2 [1; 0]%nat /\
  take_rows [1; 0]%nat (raw one_one) <> raw one_one /\
  (exists P1, pipe_fit gm bppf erfinv bad g_kind (Some c_w) None w_cfg ex_rate r_all r_style 1 (pipe only_a) (raw one_one) [1; -1]%R = (None, P1) /\
     pipe_predict g_kind (Some c_w) None P1 (raw one_one) = Some [1 / 2; - (1 / 2)]%R).
Proof. exact shuffle_example. Qed.
