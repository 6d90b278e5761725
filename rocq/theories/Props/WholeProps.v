(** Properties of whole trainings: from the training rows to the model. *)
From Coq Require Import ZArith QArith List Bool Reals Permutation Lra.
From Verif.Model Require Import Num LexBins Train Predict WholeFit BinSmoothers.
From Verif.Spec Require Import DataSpec.
From Verif.Proofs Require Import OrderFacts ShiftFacts TrainExamples WholeExamples RangeFacts.
Import ListNotations.
Local Open Scope R_scope.

(** C84: the order of the training rows does not matter.  [gamma_median],
    [beta_ppf] and [erfinv] are scipy's functions, [bad] is the value of a
    non-finite number in arithmetic that goes on with it. *)
Theorem C84_row_order : forall gamma_median beta_ppf erfinv bad k prior gs cfg rate fuel D D',
  well_formed gs D -> Permutation D D' ->
  whole_fit gamma_median beta_ppf erfinv bad k prior gs cfg rate fuel D =
  whole_fit gamma_median beta_ppf erfinv bad k prior gs cfg rate fuel D'.
Proof. exact order_irrelevant. Qed.
Print Assumptions C84_row_order.

(** Two rows in two categories: the training succeeds, with learned contributions. *)
Example C84_example : forall gm bppf erfinv bad,
  well_formed [w_group explicit_mean] heavy /\ Permutation heavy (rev heavy) /\ heavy <> rev heavy /\
  whole_fit gm bppf erfinv bad LocationRegressor false [w_group explicit_mean] w_cfg ex_rate 1 heavy =
    Trained (w_model (1201/100)).
Proof.
  intros. split; [apply heavy_well_formed|]. split; [apply Permutation_rev|]. split; [|apply heavy_fit].
  intro E. apply (f_equal (map x_y)) in E. cbn in E. injection E as E _. lra.
Qed.

(** C85, proved for the Poisson, negative binomial and binary models: rows with
    weights act as so many copies.  Missing: the three other models, for which it
    is false (the location model below, the others in WeightProps) unless the
    smoothers ignore the uncertainties ([C85_unsmoothed_partial] there). *)
Theorem C85_weights_partial : forall gamma_median beta_ppf erfinv bad k prior gs cfg rate fuel D D',
  linear_kind k = true -> well_formed gs D -> same_content D D' ->
  whole_fit gamma_median beta_ppf erfinv bad k prior gs cfg rate fuel D =
  whole_fit gamma_median beta_ppf erfinv bad k prior gs cfg rate fuel D'.
Proof. exact weights_multiplicities. Qed.
Print Assumptions C85_weights_partial.

(** In particular a row with weight n instead of n copies with weight one. *)
Theorem C85_copies : forall rows : list (sample * nat),
  same_content (map (fun r => with_weight (fst r) (INR (S (snd r)))) rows)
               (flat_map (fun r => copies (fst r) (S (snd r))) rows).
Proof. exact repeated_rows. Qed.
Print Assumptions C85_copies.

Example C85_example : same_content heavy twice /\ well_formed [w_group explicit_mean] heavy /\
  length heavy = 2%nat /\ length twice = 4%nat.
Proof. split; [exact heavy_twice|]. split; [apply heavy_well_formed|]. split; reflexivity. Qed.

(** The location model learns different contributions from rows with weight two
    and from the same rows twice. *)
Theorem C85_location_refuted : forall gamma_median beta_ppf erfinv bad, exists gs cfg rate fuel D D' m m',
  well_formed gs D /\ same_content D D' /\
  whole_fit gamma_median beta_ppf erfinv bad LocationRegressor false gs cfg rate fuel D = Trained m /\
  whole_fit gamma_median beta_ppf erfinv bad LocationRegressor false gs cfg rate fuel D' = Trained m' /\
  o_groups m <> o_groups m'.
Proof. exact weights_location. Qed.
Print Assumptions C85_location_refuted.

(** C86: moving all targets by [c] moves the location model's baseline and all its
    predictions by [c], and nothing else. *)
Theorem C86_location_shift : forall c gamma_median beta_ppf erfinv bad prior gs cfg rate fuel D,
  whole_fit gamma_median beta_ppf erfinv bad LocationRegressor prior gs cfg rate fuel (map (shift_target c) D) =
    shift_result c (whole_fit gamma_median beta_ppf erfinv bad LocationRegressor prior gs cfg rate fuel D) /\
  forall m m' X, whole_fit gamma_median beta_ppf erfinv bad LocationRegressor prior gs cfg rate fuel D = Trained m ->
    whole_fit gamma_median beta_ppf erfinv bad LocationRegressor prior gs cfg rate fuel (map (shift_target c) D) = Trained m' ->
    whole_predict LocationRegressor prior m' X = map (fun v => v + c) (whole_predict LocationRegressor prior m X).
Proof. exact location_equivariant. Qed.
Print Assumptions C86_location_shift.

Example C86_example : forall gm bppf erfinv bad,
  whole_fit gm bppf erfinv bad LocationRegressor false [w_group explicit_mean] w_cfg ex_rate 1 heavy =
    Trained (w_model (1201/100)) /\ o_groups (w_model (1201/100)) <> [].
Proof. intros. split; [apply heavy_fit|]. cbn. discriminate. Qed.

(** C97: one prediction per row, inside the range of the targets, for every model. *)
Theorem C97_range : forall k prior m X,
  length (whole_predict k prior m X) = length X /\ forall v, In v (whole_predict k prior m X) -> in_range k v.
Proof. exact whole_range. Qed.
Print Assumptions C97_range.
Example C97_example :
  whole_predict BinaryClassifier false {| o_scale := 2; o_offset := 0; o_groups := []; o_iterations := 1; o_loss := 0 |} heavy <> [] /\
  in_range BinaryClassifier (1/2) /\ ~ in_range BinaryClassifier 2 /\ ~ in_range PoissonRegressor (-1).
Proof.
  split; [|cbn; lra]. intro E.
  destruct (C97_range BinaryClassifier false {| o_scale := 2; o_offset := 0; o_groups := []; o_iterations := 1; o_loss := 0 |} heavy) as [L _].
  rewrite E in L. discriminate.
Qed.
