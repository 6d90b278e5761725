(** Weights and copies of rows in pipelines: a classifier on three rows. *)
From Coq Require Import ZArith NArith QArith Qreals List Bool Reals String Lra Lia.
From Verif.Proofs Require Import TrainFacts LinkFacts TrainExamples WholeExamples FrameFacts RefitFacts RefitExamples MirrorFacts MirrorExamples PipeExamples RecodeExamples RepeatFacts.
From Verif.Model Require Import Num Flags Ecdf BinTransform Frames LexBins Train Predict Link Estimators WholeFit BinSmoothers Refit Pipe.
From Verif.Spec Require Import FrameSpec PipeSpec DataSpec RefitSpec ShuffleSpec RepeatSpec.
Import ListNotations.

Definition c_w : label := LName "w".
Definition three : frame := {| fr_df := true; fr_float := true; fr_index := [0; 1; 2]%Z;
  fr_cols := [(c_a, [Fin 1; Fin 2; Fin 3]); (c_w, [Fin 3; Fin 1; Fin 1])] |}.
Definition listed : list nat := [0; 0; 0; 1; 2]%nat.
Definition three_y : list R := [0; 0; 1]%R.
(** The column a is declared with the property [p]. *)
Definition as_a (p : N) : option (label -> option N) := Some (fun c => if label_eqb c c_a then Some p else None).
(** A frame with one row. *)
Definition one_row (v : Q) : frame := {| fr_df := true; fr_float := true; fr_index := [0]%Z; fr_cols := [(c_a, [Fin v]); (c_w, [Fin 1])] |}.
Definition three_bins (c : label) : Z := 3%Z.
(** A smoother that parts three bins. *)
Definition parted : bin_smoother := fun _ _ _ _ b => nth_error [-1; 0; 1]%R b.
Definition parted_style : list label -> group := s_style parted.

Lemma three_table : table three.
Proof.
  split.
  - cbn. repeat constructor; cbn; intuition discriminate.
  - intros c v [E|[E|[]]]; injection E as <- <-; reflexivity.
Qed.
Lemma three_listed : every_row_listed 3 listed.
Proof. split; intros i H; [cbn in H; lia|]. destruct i as [|[|[|i]]]; cbn; auto; lia. Qed.
Lemma three_weights : column_is three c_w (times_listed 3 listed).
Proof. right. left. reflexivity. Qed.
Lemma as_undeclared p : undeclared (as_a p) (Some c_w).
Proof. intros l E q. injection E as <-. cbn. discriminate. Qed.
Lemma a_categories : no_continuous_column (as_a 4).
Proof. intros c p. cbn. destruct (label_eqb c c_a); [|discriminate]. intro E. injection E as <-. reflexivity. Qed.
Lemma all_checks : checks_targets r_all.
Proof. intros T T' _ _. reflexivity. Qed.
Lemma parted_dims : one_dimension_each parted_style.
Proof. intro names. reflexivity. Qed.

Section Runs.
Variables (gm : R -> R) (bppf : R -> R -> R -> R) (erfinv : R -> R) (bad : R).
Notation run p := (pipe_fit gm bppf erfinv bad BinaryClassifier (Some c_w) None w_cfg ex_rate r_all parted_style 1
  {| l_binner := pipeline_binner three_bins (as_a p) false; l_object := fresh [[c_a]] |}).
Notation ask := (pipe_predict BinaryClassifier (Some c_w) None).
Local Open Scope R_scope.
Definition base : R := ln ((201/1000) / (1 - 201/1000)).
Definition low : R := unlink_func Logit (base - 1).
Definition high : R := unlink_func Logit (base + 1).

Lemma unlink_increasing a b : a < b -> unlink_func Logit a < unlink_func Logit b.
Proof.
  intro H. cbn. pose proof (exp_increasing (- b) (- a) ltac:(lra)) as E. pose proof (exp_pos (- b)). pose proof (exp_pos (- a)).
  apply Rmult_lt_compat_l; [lra|]. apply Rinv_lt_contravar; [apply Rmult_lt_0_compat; lra|lra].
Qed.
Lemma base_out : unlink_func Logit base = 201/1000.
Proof. apply unlink_ln. lra. Qed.
Lemma low_range : 0 < low < 201/1000.
Proof. split; [apply unlink_inside|]. rewrite <- base_out. apply unlink_increasing. lra. Qed.
Lemma high_range : 201/1000 < high < 1.
Proof. split; [|apply unlink_inside]. rewrite <- base_out. apply unlink_increasing. lra. Qed.

Definition rows_written : list WholeFit.sample := [w_row 0 0 1; w_row 0 0 1; w_row 0 0 1; w_row 1 0 1; w_row 1 1 1].
Definition rows_codes : list WholeFit.sample := [w_row 0 0 3; w_row 1 0 1; w_row 2 1 1].


Ltac scale_of := unfold rows_written, rows_codes; cbn [kind_scale kind_link]; unfold global_scale, weighted_mean; cbn [map w_row x_y x_w sumR map2]; rewrite (proj2 (Reqb_false_iff _ _)) by lra;
  match goal with |- link_func Logit ?e = _ => replace e with (201/1000) by field end;
  cbn [link_func]; rewrite !(proj2 (Rltb_iff _ _)) by lra; reflexivity.
Ltac factors_of := unfold new_factors; cbv zeta;
  match goal with |- context [f_finite ?f] => let n := eval vm_compute in (f_finite f) in change (f_finite f) with n end;
  match goal with |- context [f_mnl ?f] => change (f_mnl f) with false end; cbn iota; cbn [seq map s_zero init_fstate];
  unfold group_smoother; cbn [nth_error parted w_group g_smoother snd kind_calibration app]; unfold ex_rate; rewrite ?Rmult_1_l; eexists; reflexivity.
Ltac loss_of := repeat match goal with x := _ : preds |- _ => subst x end; unfold rows_written, rows_codes; cbn [p_factors]; unfold kind_loss, squared_loss; cbn [kind_link map map2 w_row x_y x_w sumR zeros repeat List.length]; rewrite base_out; fold low high;
  pose proof low_range; pose proof high_range; generalize dependent low; generalize dependent high; intros; nra.
Ltac predictions_of := unfold whole_predict, cb_predict; cbn; repeat (change (Pos.to_nat 1) with 1%nat; change (Pos.to_nat 2) with 2%nat; change (Pos.to_nat 3) with 3%nat; cbn); rewrite ?Rmult_1_l, ?Rplus_0_r; repeat (apply f_equal2; [first [reflexivity|symmetry; exact base_out|exact base_out]|]); reflexivity.

Lemma written_run : exists m, whole_fit gm bppf erfinv bad BinaryClassifier false [w_group parted] w_cfg ex_rate 1 rows_written = Trained m /\
  whole_predict BinaryClassifier false m (data_rows [[[Fin 0; Fin 1; Fin 1]]] no_targets) = [low; 201/1000; 201/1000].
Proof.
  assert (Sc : kind_scale BinaryClassifier (map x_y rows_written) (map x_w rows_written) = Some base) by scale_of.
  set (p0 := {| p_factors := [base; base; base; base; base]; p_exponents := zeros 5 |}).
  assert (M : exists m, snd (new_factors (fun i _ p => map (estimate_value bad) (group_estimates gm bppf erfinv BinaryClassifier [bind_group rows_written 0 (w_group parted)] (map x_y rows_written) (map x_w rows_written) i p))
    (fun i _ p => group_smoother gm bppf erfinv bad BinaryClassifier [w_group parted] [bind_group rows_written 0 (w_group parted)] (map x_y rows_written) (map x_w rows_written) i p)
    (kind_calibration BinaryClassifier [bind_group rows_written 0 (w_group parted)] (map x_w rows_written)) ex_rate 0 (bind_group rows_written 0 (w_group parted)) (init_fstate (bind_group rows_written 0 (w_group parted))) 0 p0) = [-1; 0; m]) by factors_of.
  destruct M as (m & M). eexists. split.
  - eapply (one_pass gm bppf erfinv bad BinaryClassifier false (w_group parted) ex_rate rows_written base _ _ p0 [base - 1; base - 1; base - 1; base; base] Sc eq_refl).
    + reflexivity.
    + exact M.
    + cbn [p0 p_factors]. change (f_lex (bind_group rows_written 0 (w_group parted))) with [0; 0; 0; 1; 1]%nat. cbn. rewrite ?Rmult_1_l, ?Rplus_0_r. reflexivity.
    + loss_of.
  - predictions_of.
Qed.
Lemma category_run : exists m, whole_fit gm bppf erfinv bad BinaryClassifier false [w_group parted] w_cfg ex_rate 1 rows_codes = Trained m /\
  whole_predict BinaryClassifier false m (data_rows [[[Fin 0; Fin 1; Fin 2]]] no_targets) = [low; 201/1000; high].
Proof.
  assert (Sc : kind_scale BinaryClassifier (map x_y rows_codes) (map x_w rows_codes) = Some base) by scale_of.
  set (p0 := {| p_factors := [base; base; base]; p_exponents := zeros 3 |}).
  assert (M : exists m, snd (new_factors (fun i _ p => map (estimate_value bad) (group_estimates gm bppf erfinv BinaryClassifier [bind_group rows_codes 0 (w_group parted)] (map x_y rows_codes) (map x_w rows_codes) i p))
    (fun i _ p => group_smoother gm bppf erfinv bad BinaryClassifier [w_group parted] [bind_group rows_codes 0 (w_group parted)] (map x_y rows_codes) (map x_w rows_codes) i p)
    (kind_calibration BinaryClassifier [bind_group rows_codes 0 (w_group parted)] (map x_w rows_codes)) ex_rate 0 (bind_group rows_codes 0 (w_group parted)) (init_fstate (bind_group rows_codes 0 (w_group parted))) 0 p0) = [-1; 0; 1; m]) by factors_of.
  destruct M as (m & M). eexists. split.
  - eapply (one_pass gm bppf erfinv bad BinaryClassifier false (w_group parted) ex_rate rows_codes base _ _ p0 [base - 1; base; base + 1] Sc eq_refl).
    + reflexivity.
    + exact M.
    + cbn [p0 p_factors]. change (f_lex (bind_group rows_codes 0 (w_group parted))) with [0; 1; 2]%nat. cbn. rewrite ?Rmult_1_l, ?Rplus_0_r. reflexivity.
    + loss_of.
  - predictions_of.
Qed.

Lemma class_run p X y b Xt T q0 q1 q2 D m : bin_fit (pipeline_binner three_bins (as_a p) false) X = FOk b -> fst (bin_transform b X) = FOk Xt ->
  train_targets (Some c_w) None Xt y = Some T -> (exists col, feature_columns (Some c_w) None Xt = [(c_a, col)] /\
    (forall i, map (fun s => x_bins s i) (data_rows [[col]] T) = map (fun s => x_bins s i) D \/ (1 <= i)%nat) /\
    map x_y (data_rows [[col]] T) = map x_y D /\ map x_w (data_rows [[col]] T) = map x_w D /\ map x_prior (data_rows [[col]] T) = map x_prior D) ->
  whole_fit gm bppf erfinv bad BinaryClassifier false [w_group parted] w_cfg ex_rate 1 D = Trained m ->
  (exists Yt, fst (bin_transform b three) = FOk Yt /\ fr_index Yt = [0; 1; 2]%Z /\ feature_columns (Some c_w) None Yt = [(c_a, [Fin q0; Fin q1; Fin q2])]) ->
  exists P1, run p X y = (None, P1) /\ ask P1 three = Some (whole_predict BinaryClassifier false m (data_rows [[[Fin q0; Fin q1; Fin q2]]] no_targets)).
Proof.
  intros F E ET (col & EF & B1 & B2 & B3 & B4) W (Yt & EY & EI & EC). unfold pipe_fit, pipe_predict. cbn [l_binner l_object]. rewrite F. cbv zeta. rewrite E, ET, EF.
  set (d := {| d_cols := [(c_a, col)]; d_targets := T |}).
  assert (NG : has_prior None = true -> forall a, BinaryClassifier <> GBSRegressor a) by discriminate.
  assert (Rd : read_groups (d_cols d) [[c_a]] = Some [[col]]) by reflexivity.
  assert (W' : whole_fit gm bppf erfinv bad BinaryClassifier (has_prior None) (map parted_style [[c_a]]) w_cfg ex_rate 1 (data_rows [[col]] (d_targets d)) = Trained m).
  { rewrite <- W. apply whole_fit_same; auto. intros i Hi. cbn in Hi. destruct (B1 i) as [H|H]; [exact H|lia]. }
  pose proof (fit_is_whole gm bppf erfinv bad BinaryClassifier (has_prior None) w_cfg ex_rate r_all parted_style NG 1 (fresh [[c_a]]) [[c_a]] d [[col]] eq_refl eq_refl Rd) as H.
  rewrite W' in H. destruct H as (F1 & _).
  pose proof (fun X rows => predict_is_whole gm bppf erfinv bad BinaryClassifier (has_prior None) w_cfg ex_rate r_all parted_style NG 1 (fresh [[c_a]]) [[c_a]] d [[col]] m X rows eq_refl eq_refl Rd W') as P.
  destruct (fit_object _ _ _ _ _ _ _ _ _ _ 1 (fresh [[c_a]]) d) as [e o]. cbn [fst snd] in F1, P. subst e.
  eexists. split; [reflexivity|]. cbn [l_binner l_object]. rewrite EY.
  assert (EP : predict_targets None Yt = Some no_targets) by (unfold predict_targets, read_priors; rewrite EI; reflexivity). rewrite EP, EC.
  refine (P {| d_cols := _; d_targets := _ |} [[[Fin q0; Fin q1; Fin q2]]] _). reflexivity.
Qed.

Ltac frames_of := eexists; eexists; vm_compute; repeat split.
Lemma weighted_pipe : exists P1, run 1%N three three_y = (None, P1) /\ ask P1 three = Some [low; 201/1000; high].
Proof.
  destruct category_run as (m & W & P). rewrite <- P.
  assert (H : exists b Xt, bin_fit (pipeline_binner three_bins (as_a 1) false) three = FOk b /\ fst (bin_transform b three) = FOk Xt /\
    fr_index Xt = [0; 1; 2]%Z /\ fr_cols Xt = [(c_a, [Fin 0; Fin 1; Fin 2]); (c_w, [Fin 3; Fin 1; Fin 1])]) by frames_of.
  destruct H as (b & Xt & F & E & EI & EC).
  assert (EF : feature_columns (Some c_w) None Xt = [(c_a, [Fin 0; Fin 1; Fin 2])]) by (unfold feature_columns; rewrite EC; reflexivity).
  eapply (class_run 1 three three_y b Xt _ 0 1 2 rows_codes m F E).
  - unfold train_targets, read_weights, read_priors. rewrite EI, EC. reflexivity.
  - exists [Fin 0; Fin 1; Fin 2]. split; [exact EF|]. split; [|split; [|split]].
    + intros [|i]; [left; reflexivity|right; lia].
    + reflexivity.
    + cbn. unfold Q2R. cbn. repeat (apply f_equal2; [field|]). reflexivity.
    + reflexivity.
  - exact W.
  - exists Xt. auto.
Qed.
Lemma category_pipe : exists P1, run 4%N three three_y = (None, P1) /\ ask P1 three = Some [low; 201/1000; high].
Proof.
  destruct category_run as (m & W & P). rewrite <- P.
  assert (H : exists b Xt, bin_fit (pipeline_binner three_bins (as_a 4) false) three = FOk b /\ fst (bin_transform b three) = FOk Xt /\
    fr_index Xt = [0; 1; 2]%Z /\ fr_cols Xt = [(c_a, [Fin 0; Fin 1; Fin 2]); (c_w, [Fin 3; Fin 1; Fin 1])]) by frames_of.
  destruct H as (b & Xt & F & E & EI & EC).
  assert (EF : feature_columns (Some c_w) None Xt = [(c_a, [Fin 0; Fin 1; Fin 2])]) by (unfold feature_columns; rewrite EC; reflexivity).
  eapply (class_run 4 three three_y b Xt _ 0 1 2 rows_codes m F E).
  - unfold train_targets, read_weights, read_priors. rewrite EI, EC. reflexivity.
  - exists [Fin 0; Fin 1; Fin 2]. split; [exact EF|]. split; [|split; [|split]].
    + intros [|i]; [left; reflexivity|right; lia].
    + reflexivity.
    + cbn. unfold Q2R. cbn. repeat (apply f_equal2; [field|]). reflexivity.
    + reflexivity.
  - exact W.
  - exists Xt. auto.
Qed.
Lemma written_pipe : exists P1, run 1%N (written_out c_w listed three) (take listed 0 three_y) = (None, P1) /\ ask P1 three = Some [low; 201/1000; 201/1000].
Proof.
  destruct written_run as (m & W & P). rewrite <- P.
  assert (H : exists b Xt Yt, bin_fit (pipeline_binner three_bins (as_a 1) false) (written_out c_w listed three) = FOk b /\ fst (bin_transform b (written_out c_w listed three)) = FOk Xt /\
    fr_index Xt = [0; 0; 0; 1; 2]%Z /\ fr_cols Xt = [(c_a, [Fin 0; Fin 0; Fin 0; Fin 1; Fin 1]); (c_w, [Fin 1; Fin 1; Fin 1; Fin 1; Fin 1])] /\
    fst (bin_transform b three) = FOk Yt /\ fr_index Yt = [0; 1; 2]%Z /\ fr_cols Yt = [(c_a, [Fin 0; Fin 1; Fin 1]); (c_w, [Fin 3; Fin 1; Fin 1])]) by (eexists; frames_of).
  destruct H as (b & Xt & Yt & F & E & EI & EC & E' & EI' & EC').
  assert (EF : feature_columns (Some c_w) None Xt = [(c_a, [Fin 0; Fin 0; Fin 0; Fin 1; Fin 1])]) by (unfold feature_columns; rewrite EC; reflexivity).
  eapply (class_run 1 (written_out c_w listed three) (take listed 0 three_y) b Xt _ 0 1 1 rows_written m F E).
  - unfold train_targets, read_weights, read_priors. rewrite EI, EC. reflexivity.
  - exists [Fin 0; Fin 0; Fin 0; Fin 1; Fin 1]. split; [exact EF|]. split; [|split; [|split]].
    + intros [|i]; [left; reflexivity|right; lia].
    + reflexivity.
    + cbn. unfold Q2R. cbn. repeat (apply f_equal2; [field|]). reflexivity.
    + reflexivity.
  - exact W.
  - exists Yt. split; [exact E'|]. split; [exact EI'|]. unfold feature_columns. rewrite EC'. reflexivity.
Qed.
End Runs.

(** What the theorem asks for, and a run. *)
Theorem repeat_example gm bppf erfinv bad :
  linear_kind BinaryClassifier = true /\ checks_targets r_all /\ one_dimension_each parted_style /\
  no_continuous_column (as_a 4) /\ undeclared (as_a 4) (Some c_w) /\ table three /\ List.length three_y = List.length (fr_index three) /\
  every_row_listed (List.length (fr_index three)) listed /\ column_is three c_w (times_listed (List.length (fr_index three)) listed) /\
  fr_cols (written_out c_w listed three) = [(c_a, [Fin 1; Fin 1; Fin 1; Fin 2; Fin 3]); (c_w, [Fin 1; Fin 1; Fin 1; Fin 1; Fin 1])] /\
  exists P1, pipe_fit gm bppf erfinv bad BinaryClassifier (Some c_w) None w_cfg ex_rate r_all parted_style 1
    {| l_binner := pipeline_binner three_bins (as_a 4) false; l_object := fresh [[c_a]] |} three three_y = (None, P1) /\
    exists u v t, (u < v < t)%R /\ pipe_predict BinaryClassifier (Some c_w) None P1 three = Some [u; v; t].
Proof.
  split; [reflexivity|]. split; [exact all_checks|]. split; [exact parted_dims|]. split; [exact a_categories|]. split; [apply as_undeclared|].
  split; [exact three_table|]. split; [reflexivity|]. split; [exact three_listed|]. split; [exact three_weights|]. split; [reflexivity|].
  destruct (category_pipe gm bppf erfinv bad) as (P1 & R1 & R2). exists P1. split; [exact R1|]. exists low, (201/1000)%R, high. split; [|exact R2].
  pose proof low_range. pose proof high_range. lra.
Qed.

(** Continuous columns: the bins do not take the weights into account. *)
Theorem continuous_refuted gm bppf erfinv bad : exists k w cfg rate accepted style bins props inplace fuel o X y idx P1 P1',
  linear_kind k = true /\ checks_targets accepted /\ one_dimension_each style /\ undeclared props (Some w) /\
  table X /\ List.length y = List.length (fr_index X) /\ every_row_listed (List.length (fr_index X)) idx /\
  column_is X w (times_listed (List.length (fr_index X)) idx) /\
  pipe_fit gm bppf erfinv bad k (Some w) None cfg rate accepted style fuel {| l_binner := pipeline_binner bins props inplace; l_object := o |} X y = (None, P1) /\
  pipe_fit gm bppf erfinv bad k (Some w) None cfg rate accepted style fuel {| l_binner := pipeline_binner bins props inplace; l_object := o |}
    (written_out w idx X) (take idx 0%R y) = (None, P1') /\
  pipe_predict k (Some w) None P1' X <> pipe_predict k (Some w) None P1 X.
Proof.
  destruct (weighted_pipe gm bppf erfinv bad) as (P1 & R1 & R2). destruct (written_pipe gm bppf erfinv bad) as (P1' & R1' & R2').
  exists BinaryClassifier, c_w, w_cfg, ex_rate, r_all, parted_style, three_bins, (as_a 1), false, 1%nat, (fresh [[c_a]]), three, three_y, listed, P1, P1'.
  split; [reflexivity|]. split; [exact all_checks|]. split; [exact parted_dims|]. split; [apply as_undeclared|].
  split; [exact three_table|]. split; [reflexivity|]. split; [exact three_listed|]. split; [exact three_weights|]. split; [exact R1|]. split; [exact R1'|].
  rewrite R2, R2'. intro E. injection E as E. pose proof low_range. pose proof high_range. lra.
Qed.
Theorem bins_without_weights gm bppf erfinv bad k cfg rate accepted style inplace fuel o y P1' :
  let fit := pipe_fit gm bppf erfinv bad k (Some c_w) None cfg rate accepted style fuel {| l_binner := pipeline_binner three_bins (as_a 1) inplace; l_object := o |} in
  let predict := pipe_predict k (Some c_w) None in
  fit (written_out c_w listed three) (take listed 0%R y) = (None, P1') ->
  predict P1' (one_row 2) = predict P1' (one_row 3).
Proof.
  assert (H : forall X y P, pipe_fit gm bppf erfinv bad k (Some c_w) None cfg rate accepted style fuel {| l_binner := pipeline_binner three_bins (as_a 1) inplace; l_object := o |} X y = (None, P) ->
    bin_fit (pipeline_binner three_bins (as_a 1) inplace) X = FOk (l_binner P)).
  { intros X z P E. unfold pipe_fit in E. cbn [l_binner l_object] in E. destruct (bin_fit _ X) as [b|]; [|discriminate]. cbv zeta in E.
    destruct (fst (bin_transform b X)); [|discriminate]. destruct (train_targets _ _ _ _); [|discriminate].
    destruct (fit_object _ _ _ _ _ _ _ _ _ _ _ _ _) as [[e|] o']; [discriminate|]. injection E as <-. reflexivity. }
  assert (P : forall P v v', fst (bin_transform (l_binner P) (one_row v)) = fst (bin_transform (l_binner P) (one_row v')) ->
    pipe_predict k (Some c_w) None P (one_row v) = pipe_predict k (Some c_w) None P (one_row v')).
  { intros P v v' E. unfold pipe_predict. rewrite E. reflexivity. }
  cbv zeta. intros E2. apply P. apply H in E2. revert E2. generalize (l_binner P1'). intros b E2. vm_compute in E2. injection E2 as <-. reflexivity.
Qed.
