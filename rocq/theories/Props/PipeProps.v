(** C102-C105: whole pipelines. The estimator of a pipeline is one of those of Refit.v,
    with any settings, learning rates, checks of the data and configuration of the
    feature groups. *)
From Coq Require Import ZArith NArith QArith List Bool Reals String.
From Verif.Model Require Import Num Flags Ecdf BinTransform Frames Train WholeFit Refit Pipe.
From Verif.Spec Require Import FrameSpec RefitSpec PipeSpec.
From Verif.Proofs Require Import TrainExamples WholeExamples RefitExamples PipeRuns PipeRows PipeSteps PipeWeights PipeExamples.
Import ListNotations.

(** ** C102 *)
(** Columns that [feature_properties] does not name are read as they are: training is
    that of the estimator on the binned features with the weights and the prior
    predictions of the caller's frame, and so is prediction. Missing: pipelines without
    [feature_properties], refuted below. *)
Theorem C102_train_partial : forall gm bppf erfinv bad k weight prior cfg rate accepted style bins props inplace fuel o T y P1,
  table T -> undeclared props weight -> undeclared props prior ->
  pipe_fit gm bppf erfinv bad k weight prior cfg rate accepted style fuel
    {| l_binner := pipeline_binner bins props inplace; l_object := o |} T y = (None, P1) ->
  exists Xt W, fst (bin_transform (l_binner P1) T) = FOk Xt /\ train_targets weight prior T y = Some W /\
    fit_object gm bppf erfinv bad k (has_prior prior) cfg rate accepted style fuel o
      {| d_cols := feature_columns weight prior Xt; d_targets := W |} = (None, l_object P1).
Proof. exact raw_targets. Qed.
Print Assumptions C102_train_partial.
Theorem C102_predict_partial : forall gm bppf erfinv bad k weight prior cfg rate accepted style bins props inplace fuel o T y P1 Y,
  table T -> table Y -> undeclared props prior ->
  pipe_fit gm bppf erfinv bad k weight prior cfg rate accepted style fuel
    {| l_binner := pipeline_binner bins props inplace; l_object := o |} T y = (None, P1) ->
  pipe_predict k weight prior P1 Y =
    match fst (bin_transform (l_binner P1) Y), predict_targets prior Y with
    | FOk Xt, Some W => predict_frame k (has_prior prior) (l_object P1) {| d_cols := feature_columns weight prior Xt; d_targets := W |}
    | _, _ => None
    end.
Proof. exact raw_priors. Qed.
Print Assumptions C102_predict_partial.

(** Without [feature_properties] the weights are replaced by bin numbers: two rows of
    weight 1 have no weight at all, and there is no baseline ... *)
Theorem C102_weights_refuted : forall gm bppf erfinv bad,
  (exists P1, pipe_fit gm bppf erfinv bad g_kind (Some c_w) None w_cfg ex_rate r_all r_style 1 (pipe only_a) (raw one_one) [1; -1]%R = (None, P1) /\
     pipe_predict g_kind (Some c_w) None P1 (raw one_one) = Some [1 / 2; - (1 / 2)]%R) /\
  fst (pipe_fit gm bppf erfinv bad g_kind (Some c_w) None w_cfg ex_rate r_all r_style 1 (pipe None) (raw one_one) [1; -1]%R) = Some (Fitting NoScale).
Proof. exact (fun gm bppf erfinv bad => conj (pipe_runs gm bppf erfinv bad) (pipe_fails gm bppf erfinv bad)). Qed.
Print Assumptions C102_weights_refuted.
(** ... always: whatever the weights, training uses integers below the number of bins ... *)
Theorem C102_weights_always_refuted : forall gm bppf erfinv bad k weight prior cfg rate accepted style bins props inplace fuel o T y P1 w,
  props = None -> weight = Some w -> (2 <= bins w <= 100000000)%Z -> table T ->
  pipe_fit gm bppf erfinv bad k weight prior cfg rate accepted style fuel
    {| l_binner := pipeline_binner bins props inplace; l_object := o |} T y = (None, P1) ->
  exists d, fit_object gm bppf erfinv bad k (has_prior prior) cfg rate accepted style fuel o d = (None, l_object P1) /\
  forall t, In t (d_targets d) -> exists n : Z, v_w t = IZR n /\ (-1 <= n < bins w)%Z.
Proof. exact binned_weights. Qed.
Print Assumptions C102_weights_always_refuted.
(** ... and of the prior predictions only the bin matters. *)
Theorem C102_priors_always_refuted : forall gm bppf erfinv bad k weight c cfg rate accepted style bins inplace fuel o T y P1,
  (2 <= bins c <= 100000000)%Z -> table T -> In c (labels T) ->
  pipe_fit gm bppf erfinv bad k weight (Some c) cfg rate accepted style fuel
    {| l_binner := pipeline_binner bins None inplace; l_object := o |} T y = (None, P1) ->
  exists L, (Z.of_nat (List.length L) <= bins c - 1)%Z /\
  forall Y r Y' r' i j, table Y -> table Y' -> pipe_predict k weight (Some c) P1 Y = Some r -> pipe_predict k weight (Some c) P1 Y' = Some r' ->
    (i < List.length (fr_index Y))%nat -> (j < List.length (fr_index Y'))%nat ->
    rows_agree (fun d v v' => if label_eqb d c then same_step L v v' else v = v') Y i Y' j ->
    nth_error r i = nth_error r' j.
Proof. exact binned_priors. Qed.
Print Assumptions C102_priors_always_refuted.
Example c102_hypotheses : table (raw one_one) /\ undeclared only_a (Some c_w) /\ undeclared only_a None.
Proof. exact one_hypotheses. Qed.

(** ** C103 *)
(** [affine a s] with a > 0: other units and another zero. The estimator is the same
    after training, and predictions of frames in the new units are those of the frames
    in the old ones. *)
Theorem C103_units : forall gm bppf erfinv bad k weight prior cfg rate accepted style bins props inplace c a s X,
  continuous_column props c -> (0 < a)%Q -> (bins c <= 100000000)%Z -> table X -> In c (labels X) ->
  forall fuel o y e P1 e' P1',
  let fit := pipe_fit gm bppf erfinv bad k weight prior cfg rate accepted style fuel
               {| l_binner := pipeline_binner bins props inplace; l_object := o |} in
  fit X y = (e, P1) -> fit (rescaled c (affine a s) X) y = (e', P1') ->
  e = e' /\ l_object P1 = l_object P1' /\
  (e = None -> forall Y, table Y ->
     pipe_predict k weight prior P1' (rescaled c (affine a s) Y) = pipe_predict k weight prior P1 Y).
Proof. exact units_pipe. Qed.
Print Assumptions C103_units.
Example c103_hypotheses : forall gm bppf erfinv bad,
  continuous_column only_a c_a /\ table (raw one_one) /\ In c_a (labels (raw one_one)) /\
  (exists P1, pipe_fit gm bppf erfinv bad g_kind (Some c_w) None w_cfg ex_rate r_all r_style 1 (pipe only_a) (raw one_one) [1; -1]%R = (None, P1) /\
     pipe_predict g_kind (Some c_w) None P1 (raw one_one) = Some [1 / 2; - (1 / 2)]%R).
Proof. exact (fun gm bppf erfinv bad => conj only_a_continuous (conj (raw_table one_one eq_refl) (conj (or_introl eq_refl) (pipe_runs gm bppf erfinv bad)))). Qed.

(** ** C104 *)
(** Any change of scale that keeps the order: logarithms, ranks, powers. *)
Theorem C104_order : forall gm bppf erfinv bad k weight prior cfg rate accepted style bins props inplace c f X t,
  continuous_column props c -> order_preserving f -> (bins c <= 100000000)%Z -> table X -> column_is X c t ->
  (forall v, In v t -> isfinite v = true \/ v = NaN) -> well_spread t -> well_spread (map (on_values f) t) ->
  forall fuel o y e P1 e' P1',
  let fit := pipe_fit gm bppf erfinv bad k weight prior cfg rate accepted style fuel
               {| l_binner := pipeline_binner bins props inplace; l_object := o |} in
  fit X y = (e, P1) -> fit (rescaled c f X) y = (e', P1') ->
  e = e' /\ l_object P1 = l_object P1' /\
  (e = None -> forall Y x, table Y -> column_is Y c x -> (forall v, In v x -> isfinite v = true -> In v t) ->
     pipe_predict k weight prior P1' (rescaled c f Y) = pipe_predict k weight prior P1 Y).
Proof. exact order_pipe. Qed.
Print Assumptions C104_order.
Example c104_hypotheses : order_preserving (fun q => q * q * q)%Q /\ column_is (raw one_one) c_a [Fin 10; Fin 20] /\
  well_spread [Fin 10; Fin 20] /\ well_spread (map (on_values (fun q => q * q * q)%Q) [Fin 10; Fin 20]).
Proof. exact cube_ok. Qed.

(** ** C105 *)
(** Rows of two frames with the same values get the same prediction, whatever the other
    rows, the other labels and the order of the columns ... *)
Theorem C105_rows : forall gm bppf erfinv bad k weight prior cfg rate accepted style fuel P T y P1,
  table T -> pipe_fit gm bppf erfinv bad k weight prior cfg rate accepted style fuel P T y = (None, P1) ->
  forall Y r Y' r' i j, table Y -> table Y' ->
  pipe_predict k weight prior P1 Y = Some r -> pipe_predict k weight prior P1 Y' = Some r' ->
  (i < List.length (fr_index Y))%nat -> (j < List.length (fr_index Y'))%nat ->
  rows_agree (fun _ v v' => v = v') Y i Y' j ->
  List.length r = List.length (fr_index Y) /\ nth_error r i = nth_error r' j.
Proof. exact pipe_row. Qed.
Print Assumptions C105_rows.
(** ... predictions change in a continuous column at fewer places than there are bins ... *)
Theorem C105_steps : forall gm bppf erfinv bad k weight prior cfg rate accepted style bins props inplace c fuel o T y P1,
  continuous_column props c -> (2 <= bins c <= 100000000)%Z -> table T -> In c (labels T) ->
  pipe_fit gm bppf erfinv bad k weight prior cfg rate accepted style fuel
    {| l_binner := pipeline_binner bins props inplace; l_object := o |} T y = (None, P1) ->
  exists thresholds, (Z.of_nat (List.length thresholds) <= bins c - 1)%Z /\
  forall Y r Y' r' i j, table Y -> table Y' ->
    pipe_predict k weight prior P1 Y = Some r -> pipe_predict k weight prior P1 Y' = Some r' ->
    (i < List.length (fr_index Y))%nat -> (j < List.length (fr_index Y'))%nat ->
    rows_agree (fun d v v' => if label_eqb d c then same_step thresholds v v' else v = v') Y i Y' j ->
    nth_error r i = nth_error r' j.
Proof. exact steps_pipe. Qed.
Print Assumptions C105_steps.
(** ... so that rows that differ in this column only have at most one prediction for each
    bin and one for missing values. *)
Theorem C105_count : forall gm bppf erfinv bad k weight prior cfg rate accepted style bins props inplace c fuel o T y P1,
  continuous_column props c -> (2 <= bins c <= 100000000)%Z -> table T -> In c (labels T) ->
  pipe_fit gm bppf erfinv bad k weight prior cfg rate accepted style fuel
    {| l_binner := pipeline_binner bins props inplace; l_object := o |} T y = (None, P1) ->
  forall Y r, table Y -> constant_but c Y -> pipe_predict k weight prior P1 Y = Some r ->
  (Z.of_nat (List.length (nodup Req_EM_T r)) <= bins c + 1)%Z.
Proof. exact count_pipe. Qed.
Print Assumptions C105_count.
(** The two rows of the example differ in the column a only, and have two predictions. *)
Example c105_constant : constant_but c_a (raw one_one) /\ two_bins c_a = 2%Z.
Proof. exact raw_constant. Qed.
