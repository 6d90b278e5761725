(** An interaction of two columns, trained in either order. *)
From Coq Require Import ZArith NArith QArith Qreals Qround List Bool Reals Lra Lia Permutation.
From Verif.Proofs Require Import TrainFacts LinkFacts TrainExamples IsotonicRuns OrderFacts WholeExamples RelabelFacts RelabelExamples FrameFacts RefitFacts RefitExamples PipeExamples RecodeExamples ColumnOrderFacts ColumnOrderFit.
From Verif.Model Require Import Num Flags Ecdf BinTransform Frames LexBins Train Predict Link Estimators WholeFit BinSmoothers Refit Pipe.
From Verif.Spec Require Import FrameSpec PipeSpec LexSpec RelabelSpec RefitSpec ShuffleSpec ColumnOrderSpec.
Import ListNotations.

Definition square : frame := {| fr_df := true; fr_float := true; fr_index := [0; 1; 2; 3]%Z;
  fr_cols := [(c_a, [Fin 0; Fin 1; Fin 0; Fin 1]); (c_b, [Fin 0; Fin 0; Fin 1; Fin 1])] |}.
Definition square_y : list R := [0; dd; - dd; 0]%R.
Definition v_style : list label -> group := s_style bin_values.
Definition ab_pipe : pipeline := {| l_binner := pipeline_binner two_bins all_codes false; l_object := fresh [[c_a; c_b]] |}.
Definition ba_pipe : pipeline := {| l_binner := pipeline_binner two_bins all_codes false; l_object := fresh [[c_b; c_a]] |}.
Definition square_row (a b : Q) (y : R) : sample := {| x_bins := fun _ => [Fin a; Fin b]; x_prior := None; x_y := y; x_w := 1 |}.
Definition square_rows : list sample := [square_row 0 0 0; square_row 1 0 dd; square_row 0 1 (- dd); square_row 1 1 0]%R.

Lemma square_groups : one_dimension_each d_style /\ groups_reordered d_style [[c_a; c_b]; [c_a]] [[c_b; c_a]; [c_a]].
Proof.
  split; [intro; reflexivity|]. constructor; [right|constructor; [left; reflexivity|constructor]].
  split; [apply perm_swap|]. split; [reflexivity|exact default_order].
Qed.

Local Open Scope R_scope.
Notation pair_group s := {| g_dim := 2; g_hier := false; g_mnl := false; g_smoother := s |}.
Lemma square_lex s : f_lex (bind_group square_rows 0 (pair_group s)) = [0; 2; 1; 3]%nat /\ f_finite (bind_group square_rows 0 (pair_group s)) = 4%nat.
Proof. split; reflexivity. Qed.
Lemma square_prior : variance_prior [0; dd; - dd; 0] [1; 1; 1; 1] = Some 1.
Proof. unfold dd. lcomp. repeat (real_step; lcomp). f_equal. Qed.
Lemma square_variances : precalc_variance_y [0; 2; 1; 3]%nat 5 [0; dd; - dd; 0] [1; 1; 1; 1] = [Some (1/2); Some (1/2); Some (1/2); Some (1/2); Some 1].
Proof. unfold precalc_variance_y. rewrite square_prior. unfold dd. lcomp. repeat (real_step; lcomp). repeat (f_equal; try field). Qed.
Lemma square_estimates : location_parameters [0; 2; 1; 3]%nat 5 [0; dd; - dd; 0] [1; 1; 1; 1] [1/1000; 1/1000; 1/1000; 1/1000] =
  [Some (mu, u0); Some (mu - cc, u0); Some (mu + cc, u0); Some (mu, u0); Some (0, um)].
Proof.
  unfold location_parameters. rewrite square_variances. unfold mu, cc, u0, um, dd. lcomp. repeat (real_step; lcomp).
  repeat (apply f_equal2; [apply some_pair; [field|apply sqrt_same; field]|]). reflexivity.
Qed.

Section Runs.
Variables (gm : R -> R) (bppf : R -> R -> R -> R) (erfinv : R -> R) (bad : R).
Definition square_model (loss : R) : model :=
  {| o_scale := 1/1000; o_offset := 1/1000;
     o_groups := [{| m_dim := 2; m_nbins := [2; 2]%Z; m_ext := false; m_values := [0; - cc; cc; 0]; m_missing := - mu; m_smoother := true |}];
     o_iterations := 1; o_loss := loss |}.
Lemma square_fit : exists l, whole_fit gm bppf erfinv bad LocationRegressor false [pair_group bin_values] w_cfg ex_rate 1 square_rows = Trained (square_model l).
Proof.
  destruct (square_lex bin_values) as [L F]. eexists.
  erewrite (one_pass gm bppf erfinv bad LocationRegressor false _ ex_rate square_rows (1/1000) (1/1000) [0; - cc; cc; 0; - mu]
    {| p_factors := [1/1000; 1/1000; 1/1000; 1/1000]; p_exponents := zeros 4 |} [1/1000; 1/1000 + cc; 1/1000 - cc; 1/1000]).
  - unfold square_model. f_equal.
  - cbn [kind_scale kind_link]. unfold global_scale, weighted_mean. cbn [square_rows map square_row x_y x_w sumR map2].
    rewrite (proj2 (Reqb_false_iff _ _)) by lra. cbn [link_func]. f_equal. field.
  - unfold kind_offset, prior_offset, link_option, weighted_mean. cbn [square_rows map square_row x_prior x_w finite_values finite_weights sumR map2].
    rewrite (proj2 (Reqb_iff _ _)) by lra. reflexivity.
  - reflexivity.
  - assert (Mn : f_mnl (bind_group square_rows 0 (pair_group bin_values)) = false) by reflexivity.
    set (f := bind_group square_rows 0 (pair_group bin_values)) in *. clearbody f.
    unfold new_factors. cbv zeta. cbn [snd]. unfold group_smoother, group_estimates. cbn [nth_error]. rewrite L, F.
    cbn [estimates]. change (map x_y square_rows) with [0; dd; - dd; 0]. change (map x_w square_rows) with [1; 1; 1; 1]. cbn [p_factors].
    rewrite square_estimates. rewrite Mn. cbn [map estimate_value estimate_uncertainty nth seq firstn s_zero init_fstate g_smoother bin_values nth_error].
    cbn [app]. unfold ex_rate. unfold kind_calibration, location_calibration. cbn [nth_error].
    rewrite L, F, Mn. unfold bincounts. cbn [map seq bin_total Nat.eqb]. unfold calibrate, centred. cbn [map map2 sumR].
    repeat (apply f_equal2; [field|]). reflexivity.
  - cbn [p_factors]. rewrite L. cbn. repeat (apply f_equal2; [lra|]). reflexivity.
  - cbn [kind_loss kind_link p_factors square_rows square_row map x_y x_w]. unfold squared_loss. cbn. unfold cc, dd. lra.
Qed.

Notation run := (pipe_fit gm bppf erfinv bad LocationRegressor None None w_cfg ex_rate r_all v_style 1).
Notation ask := (pipe_predict LocationRegressor None None).
Lemma square_run : exists P1, run ab_pipe square square_y = (None, P1) /\ ask P1 square = Some [1 / 1000; 1 / 1000 + cc; 1 / 1000 - cc; 1 / 1000].
Proof.
  destruct square_fit as [l W].
  assert (H : exists b Xt, bin_fit (pipeline_binner two_bins all_codes false) square = FOk b /\ fst (bin_transform b square) = FOk Xt /\
    fr_index Xt = [0; 1; 2; 3]%Z /\ fr_cols Xt = [(c_a, [Fin 0; Fin 1; Fin 0; Fin 1]); (c_b, [Fin 0; Fin 0; Fin 1; Fin 1])]) by (eexists; eexists; vm_compute; repeat split).
  destruct H as (b & Xt & F & E & EI & EC).
  unfold pipe_fit, pipe_predict. cbn [ab_pipe l_binner l_object]. rewrite F. cbv zeta. rewrite E.
  set (T := [{| v_prior := None; v_y := 0; v_w := 1 |}; {| v_prior := None; v_y := dd; v_w := 1 |}; {| v_prior := None; v_y := - dd; v_w := 1 |}; {| v_prior := None; v_y := 0; v_w := 1 |}]).
  assert (ET : train_targets None None Xt square_y = Some T) by (unfold train_targets, read_weights, read_priors; rewrite EI; reflexivity). rewrite ET.
  set (cols := [(c_a, [Fin 0; Fin 1; Fin 0; Fin 1]); (c_b, [Fin 0; Fin 0; Fin 1; Fin 1])]) in *.
  assert (EF : feature_columns None None Xt = cols) by (unfold feature_columns; rewrite EC; reflexivity). rewrite EF.
  set (d := {| d_cols := cols; d_targets := T |}). set (cs := [[[Fin 0; Fin 1; Fin 0; Fin 1]; [Fin 0; Fin 0; Fin 1; Fin 1]]]).
  assert (NG : has_prior None = true -> forall a, LocationRegressor <> GBSRegressor a) by discriminate.
  assert (W' : whole_fit gm bppf erfinv bad LocationRegressor (has_prior None) (map v_style [[c_a; c_b]]) w_cfg ex_rate 1 (data_rows cs (d_targets d)) = Trained (square_model l)).
  { rewrite <- W. apply whole_fit_same; try reflexivity. intros [|i] Hi; [reflexivity|cbn in Hi; lia]. }
  pose proof (fit_is_whole gm bppf erfinv bad LocationRegressor (has_prior None) w_cfg ex_rate r_all v_style NG 1 (fresh [[c_a; c_b]]) [[c_a; c_b]] d cs eq_refl eq_refl eq_refl) as H.
  rewrite W' in H. destruct H as (F1 & _).
  pose proof (fun X rows => predict_is_whole gm bppf erfinv bad LocationRegressor (has_prior None) w_cfg ex_rate r_all v_style NG 1 (fresh [[c_a; c_b]]) [[c_a; c_b]] d cs (square_model l) X rows eq_refl eq_refl eq_refl W') as P.
  destruct (fit_object _ _ _ _ _ _ _ _ _ _ 1 (fresh [[c_a; c_b]]) d) as [e o]. cbn [fst snd] in F1, P. subst e.
  eexists. split; [reflexivity|]. cbn [l_binner l_object]. rewrite E.
  set (Z := [{| v_prior := None; v_y := 0; v_w := 1 |}; {| v_prior := None; v_y := 0; v_w := 1 |}; {| v_prior := None; v_y := 0; v_w := 1 |}; {| v_prior := None; v_y := 0; v_w := 1 |}]).
  assert (EP : predict_targets None Xt = Some Z) by (unfold predict_targets, read_priors; rewrite EI; reflexivity). rewrite EP, EF.
  rewrite (P {| d_cols := cols; d_targets := Z |} cs eq_refl). f_equal.
  unfold whole_predict, cb_predict. cbn. change (Pos.to_nat 1) with 1%nat. change (Pos.to_nat 2) with 2%nat. change (Pos.to_nat 3) with 3%nat. cbn. repeat (apply f_equal2; [lra|]). reflexivity.
Qed.
(** The other order, by the theorem. *)
Lemma square_run_reordered : exists P1, run ba_pipe square square_y = (None, P1) /\ ask P1 square = Some [1 / 1000; 1 / 1000 + cc; 1 / 1000 - cc; 1 / 1000].
Proof.
  destruct square_run as (P1 & R1 & A1). destruct (run ba_pipe square square_y) as [e' P2] eqn:R2.
  assert (Gr : groups_reordered v_style [[c_a; c_b]] [[c_b; c_a]]).
  { constructor; [right|constructor]. split; [apply perm_swap|]. split; [reflexivity|exact bin_values_order]. }
  assert (Ne : forall names, In names [[c_a; c_b]] -> names <> []) by (intros names [<- |[]]; discriminate).
  destruct (pipe_reordered gm bppf erfinv bad LocationRegressor None None w_cfg ex_rate r_all v_style (pipeline_binner two_bins all_codes false) 1
    (fresh [[c_a; c_b]]) (fresh [[c_b; c_a]]) [[c_a; c_b]] [[c_b; c_a]] square square_y None P1 e' P2 (fun _ => eq_refl) ltac:(discriminate) eq_refl eq_refl Ne Gr R1 R2) as [<- H].
  exists P2. split; [reflexivity|]. destruct (H eq_refl) as (_ & _ & _ & V). rewrite V. exact A1.
Qed.
End Runs.
