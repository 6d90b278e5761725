(** Recoding the categories of a three-row frame. *)
From Coq Require Import ZArith NArith QArith Qreals Qround List Bool Reals Lra Lia.
From Verif.Proofs Require Import TrainFacts LinkFacts TrainExamples WholeExamples RelabelFacts RelabelExamples FrameFacts RefitFacts RefitExamples PipeExamples.
From Verif.Model Require Import Num Flags Ecdf BinTransform Frames LexBins Train Predict Link Estimators WholeFit BinSmoothers Refit Pipe.
From Verif.Spec Require Import FrameSpec PipeSpec LexSpec RelabelSpec RefitSpec ShuffleSpec RecodeSpec.
Import ListNotations.

Definition codes : frame := {| fr_df := true; fr_float := true; fr_index := [0; 1; 2]%Z; fr_cols := [(c_a, [Fin 0; Fin 1; Fin 2])] |}.
Definition codes_a : option (label -> option N) := Some (fun c => if label_eqb c c_a then Some 4%N else None).
Definition swap_q (a b q : Q) : Q := if Qeq_bool q a then b else if Qeq_bool q b then a else q.
Lemma swap_q_one a b : one_to_one (swap_q a b).
Proof.
  intros q r. unfold swap_q. destruct (Qeq_bool q a) eqn:E1; destruct (Qeq_bool r a) eqn:E2;
    repeat match goal with H : Qeq_bool _ _ = true |- _ => apply Qeq_bool_iff in H | H : Qeq_bool _ _ = false |- _ => apply Qeq_bool_neq in H end.
  - split; intros _; [rewrite E1, E2|]; reflexivity.
  - destruct (Qeq_bool r b) eqn:E3; [apply Qeq_bool_iff in E3|apply Qeq_bool_neq in E3].
    + rewrite E1, E3. split; intro H; symmetry; exact H.
    + split; intro H; exfalso; [apply E3; symmetry; exact H|apply E2; rewrite <- H; exact E1].
  - destruct (Qeq_bool q b) eqn:E3; [apply Qeq_bool_iff in E3|apply Qeq_bool_neq in E3].
    + rewrite E2, E3. split; intro H; symmetry; exact H.
    + split; intro H; exfalso; [apply E3; exact H|apply E1; rewrite H; exact E2].
  - destruct (Qeq_bool q b) eqn:E3; destruct (Qeq_bool r b) eqn:E4;
    repeat match goal with H : Qeq_bool _ _ = true |- _ => apply Qeq_bool_iff in H | H : Qeq_bool _ _ = false |- _ => apply Qeq_bool_neq in H end.
    + split; intros _; [rewrite E3, E4|]; reflexivity.
    + split; intro H; exfalso; [apply E2; symmetry; exact H|apply E4; rewrite <- H; exact E3].
    + split; intro H; exfalso; [apply E1; exact H|apply E3; rewrite H; exact E4].
    + reflexivity.
Qed.
Definition s_style (s : bin_smoother) (names : list label) : group := {| g_dim := List.length names; g_hier := false; g_mnl := false; g_smoother := s |}.
Definition d_style : list label -> group := s_style default_unordered.
Definition e_style : list label -> group := s_style explicit_mean.
Definition c_pipe : pipeline := {| l_binner := pipeline_binner two_bins codes_a false; l_object := fresh [[c_a]] |}.
Definition c_y : list R := [0; dd; - dd]%R.

Lemma codes_table : table codes.
Proof.
  split; [cbn; constructor; [intros []|constructor]|]. intros c v [E|[]]. injection E as <- <-. reflexivity.
Qed.
Lemma codes_values : codes_or_missing [Fin 0; Fin 1; Fin 2].
Proof. intros v [<- |[<- |[<- |[]]]]; right; eauto. Qed.
Lemma codes_categorical : categorical_column codes_a c_a.
Proof. exists 4%N. repeat split. Qed.
Lemma codes_group names : group_with (fresh [[c_a]]) c_a names -> names = [c_a].
Proof. intros [_ [<- |[]]]. reflexivity. Qed.

Lemma whole_fit_same gm bppf erfinv bad k pc gs cfg rate fuel D D' : (forall i, (i < length gs)%nat -> map (fun s => x_bins s i) D = map (fun s => x_bins s i) D') ->
  map x_y D = map x_y D' -> map x_w D = map x_w D' -> map x_prior D = map x_prior D' ->
  whole_fit gm bppf erfinv bad k pc gs cfg rate fuel D = whole_fit gm bppf erfinv bad k pc gs cfg rate fuel D'.
Proof.
  intros B Y W P.
  assert (Bg : forall gs j, (forall i, (i < length gs)%nat -> map (fun s => x_bins s (j + i)%nat) D = map (fun s => x_bins s (j + i)%nat) D') -> bind_groups D j gs = bind_groups D' j gs).
  { clear. induction gs as [|g r IH]; intros j H; [reflexivity|]. cbn [bind_groups]. f_equal.
    - unfold bind_group. f_equal. specialize (H 0%nat). rewrite Nat.add_0_r in H. apply H. cbn. lia.
    - apply IH. intros i Hi. specialize (H (S i)). rewrite <- Nat.add_succ_comm in H. apply H. cbn. lia. }
  specialize (Bg gs 0%nat B).
  assert (Ln : length D = length D') by (rewrite <- (map_length x_y), Y, map_length; reflexivity).
  assert (Lp : linked_column k pc D = linked_column k pc D') by (unfold linked_column; rewrite P; reflexivity).
  unfold whole_fit, train. rewrite Y, W, P, Bg, Ln, Lp. reflexivity.
Qed.

Definition no_targets : list target := [{| v_prior := None; v_y := 0; v_w := 1 |}; {| v_prior := None; v_y := 0; v_w := 1 |}; {| v_prior := None; v_y := 0; v_w := 1 |}]%R.
Section Runs.
Variables (gm : R -> R) (bppf : R -> R -> R -> R) (erfinv : R -> R) (bad : R).
Notation run s := (pipe_fit gm bppf erfinv bad LocationRegressor None None w_cfg ex_rate r_all (s_style s) 1 c_pipe).
Notation ask := (pipe_predict LocationRegressor None None).

Lemma code_run s (X Xt : frame) b q0 q1 q2 m : bin_fit (pipeline_binner two_bins codes_a false) X = FOk b -> fst (bin_transform b X) = FOk Xt ->
  fr_index Xt = [0; 1; 2]%Z -> fr_cols Xt = [(c_a, [Fin q0; Fin q1; Fin q2])] ->
  whole_fit gm bppf erfinv bad LocationRegressor false [w_group s] w_cfg ex_rate 1 [w_row q0 0 1; w_row q1 dd 1; w_row q2 (- dd) 1] = Trained m ->
  exists P1, run s X c_y = (None, P1) /\
    ask P1 X = Some (whole_predict LocationRegressor false m (data_rows [[[Fin q0; Fin q1; Fin q2]]] no_targets)).
Proof.
  intros F E EI EC W. unfold pipe_fit, pipe_predict. cbn [c_pipe l_binner l_object]. rewrite F. cbv zeta. rewrite E.
  set (T := [{| v_prior := None; v_y := 0; v_w := 1 |}; {| v_prior := None; v_y := dd; v_w := 1 |}; {| v_prior := None; v_y := - dd; v_w := 1 |}]%R).
  assert (ET : train_targets None None Xt c_y = Some T) by (unfold train_targets, read_weights, read_priors; rewrite EI; reflexivity). rewrite ET.
  assert (EF : feature_columns None None Xt = [(c_a, [Fin q0; Fin q1; Fin q2])]) by (unfold feature_columns; rewrite EC; reflexivity). rewrite EF.
  set (d := {| d_cols := [(c_a, [Fin q0; Fin q1; Fin q2])]; d_targets := T |}).
  assert (NG : has_prior None = true -> forall a, LocationRegressor <> GBSRegressor a) by discriminate.
  assert (W' : whole_fit gm bppf erfinv bad LocationRegressor (has_prior None) (map (s_style s) [[c_a]]) w_cfg ex_rate 1 (data_rows [[[Fin q0; Fin q1; Fin q2]]] (d_targets d)) = Trained m).
  { rewrite <- W. apply whole_fit_same; try reflexivity. intros [|i] Hi; [reflexivity|cbn in Hi; lia]. }
  pose proof (fit_is_whole gm bppf erfinv bad LocationRegressor (has_prior None) w_cfg ex_rate r_all (s_style s) NG 1 (fresh [[c_a]]) [[c_a]] d [[[Fin q0; Fin q1; Fin q2]]] eq_refl eq_refl eq_refl) as H.
  rewrite W' in H. destruct H as (F1 & _).
  pose proof (fun X rows => predict_is_whole gm bppf erfinv bad LocationRegressor (has_prior None) w_cfg ex_rate r_all (s_style s) NG 1 (fresh [[c_a]]) [[c_a]] d [[[Fin q0; Fin q1; Fin q2]]] m X rows eq_refl eq_refl eq_refl W') as P.
  destruct (fit_object _ _ _ _ _ _ _ _ _ _ 1 (fresh [[c_a]]) d) as [e o]. cbn [fst snd] in F1, P. subst e.
  eexists. split; [reflexivity|]. cbn [l_binner l_object]. rewrite E.
  assert (EP : predict_targets None Xt = Some no_targets) by (unfold predict_targets, read_priors; rewrite EI; reflexivity). rewrite EP, EF.
  refine (P {| d_cols := _; d_targets := _ |} [[[Fin q0; Fin q1; Fin q2]]] _). reflexivity.
Qed.

Lemma codes_run : exists P1, run explicit_mean codes c_y = (None, P1) /\ ask P1 codes = Some [1 / 1000; 1 / 1000 + cc; 1 / 1000 - cc]%R.
Proof.
  destruct (spread_fit gm bppf erfinv bad) as [l W].
  assert (H : exists b Xt, bin_fit (pipeline_binner two_bins codes_a false) codes = FOk b /\ fst (bin_transform b codes) = FOk Xt /\
    fr_index Xt = [0; 1; 2]%Z /\ fr_cols Xt = [(c_a, [Fin 0; Fin 1; Fin 2])]) by (eexists; eexists; vm_compute; repeat split).
  destruct H as (b & Xt & F & E & EI & EC). destruct (code_run explicit_mean codes Xt b 0 1 2 _ F E EI EC W) as (P1 & R1 & R2). exists P1. split; [exact R1|]. rewrite R2. f_equal.
  unfold whole_predict, cb_predict. cbn. change (Pos.to_nat 1) with 1%nat. change (Pos.to_nat 2) with 2%nat. cbn. repeat (apply f_equal2; [lra|]). reflexivity.
Qed.
Lemma swapped_run : exists P1, run explicit_mean (rescaled c_a (swap_q 0 1) codes) c_y = (None, P1) /\
  ask P1 (rescaled c_a (swap_q 0 1) codes) = Some [1 / 1000; 1 / 1000 + shrink * cc; 1 / 1000 - shrink * cc]%R.
Proof.
  destruct (swapped_fit gm bppf erfinv bad) as [l W].
  assert (H : exists b Xt, bin_fit (pipeline_binner two_bins codes_a false) (rescaled c_a (swap_q 0 1) codes) = FOk b /\ fst (bin_transform b (rescaled c_a (swap_q 0 1) codes)) = FOk Xt /\
    fr_index Xt = [0; 1; 2]%Z /\ fr_cols Xt = [(c_a, [Fin 1; Fin 0; Fin 2])]) by (eexists; eexists; vm_compute; repeat split).
  destruct H as (b & Xt & F & E & EI & EC). destruct (code_run explicit_mean _ Xt b 1 0 2 _ F E EI EC W) as (P1 & R1 & R2). exists P1. split; [exact R1|]. rewrite R2. f_equal.
  unfold whole_predict, cb_predict. cbn. change (Pos.to_nat 1) with 1%nat. change (Pos.to_nat 2) with 2%nat. cbn. repeat (apply f_equal2; [lra|]). reflexivity.
Qed.

Lemma default_run : exists P1, run default_unordered codes c_y = (None, P1) /\ ask P1 codes = Some [1 / 1000; 1 / 1000 + shrink * cc; 1 / 1000 - shrink * cc]%R.
Proof.
  destruct (spread_default_fit gm bppf erfinv bad) as [l W].
  assert (H : exists b Xt, bin_fit (pipeline_binner two_bins codes_a false) codes = FOk b /\ fst (bin_transform b codes) = FOk Xt /\
    fr_index Xt = [0; 1; 2]%Z /\ fr_cols Xt = [(c_a, [Fin 0; Fin 1; Fin 2])]) by (eexists; eexists; vm_compute; repeat split).
  destruct H as (b & Xt & F & E & EI & EC). destruct (code_run default_unordered codes Xt b 0 1 2 _ F E EI EC W) as (P1 & R1 & R2). exists P1. split; [exact R1|]. rewrite R2. f_equal.
  unfold whole_predict, cb_predict. cbn. change (Pos.to_nat 1) with 1%nat. change (Pos.to_nat 2) with 2%nat. cbn. repeat (apply f_equal2; [lra|]). reflexivity.
Qed.

(** Swapping the categories 0 and 1. *)
Lemma recode_example :
  one_dimension_each d_style /\ categorical_column codes_a c_a /\ one_to_one (swap_q 0 1) /\ (2 <= two_bins c_a)%Z /\ table codes /\
  column_is codes c_a [Fin 0; Fin 1; Fin 2] /\ codes_or_missing [Fin 0; Fin 1; Fin 2] /\ rescaled c_a (swap_q 0 1) codes <> codes /\
  (forall names, group_with (fresh [[c_a]]) c_a names ->
     (names = [c_a] \/ seen_together (pipeline_binner two_bins codes_a false) codes names c_a [Fin 0; Fin 1; Fin 2]) /\
     (label_free (g_smoother (d_style names)) \/ label_free_but_first (g_smoother (d_style names)) /\ keeps_first (swap_q 0 1) [Fin 0; Fin 1; Fin 2]) /\
     g_smoother (d_style names) = default_unordered) /\
  (forall x v, column_is codes c_a x -> In v x -> known_or_new (swap_q 0 1) [Fin 0; Fin 1; Fin 2] v) /\
  exists P1, run default_unordered codes c_y = (None, P1) /\ ask P1 codes = Some [1 / 1000; 1 / 1000 + shrink * cc; 1 / 1000 - shrink * cc]%R.
Proof.
  split; [intro; reflexivity|]. split; [exact codes_categorical|]. split; [apply swap_q_one|]. split; [unfold two_bins; lia|]. split; [exact codes_table|].
  split; [left; reflexivity|]. split; [exact codes_values|]. split; [discriminate|]. split.
  - intros names G. apply codes_group in G. subst names. split; [left; reflexivity|]. split; [left; exact default_unordered_free|reflexivity].
  - split; [|exact default_run]. intros x v [E|[]] I. injection E as <-. destruct I as [<- |[<- |[<- |[]]]]; left; eexists; (split; [|reflexivity]); cbn; auto.
Qed.

Lemma recode_explicit :
  exists k weight prior cfg rate accepted style bins props inplace fuel o c f X y t P1 P1',
  one_dimension_each style /\ categorical_column props c /\ one_to_one f /\ (2 <= bins c)%Z /\ weight <> Some c /\ prior <> Some c /\
  has_prior prior = false /\ table X /\ column_is X c t /\ codes_or_missing t /\ List.length y = List.length (fr_index X) /\
  (forall names, group_with o c names -> names = [c] /\ g_smoother (style names) = explicit_mean) /\
  pipe_fit gm bppf erfinv bad k weight prior cfg rate accepted style fuel {| l_binner := pipeline_binner bins props inplace; l_object := o |} X y = (None, P1) /\
  pipe_fit gm bppf erfinv bad k weight prior cfg rate accepted style fuel {| l_binner := pipeline_binner bins props inplace; l_object := o |} (rescaled c f X) y = (None, P1') /\
  pipe_predict k weight prior P1' (rescaled c f X) <> pipe_predict k weight prior P1 X.
Proof.
  destruct codes_run as (P1 & R1 & A1). destruct swapped_run as (P2 & R2 & A2).
  exists LocationRegressor, None, None, w_cfg, ex_rate, r_all, e_style, two_bins, codes_a, false, 1%nat, (fresh [[c_a]]), c_a, (swap_q 0 1), codes, c_y, [Fin 0; Fin 1; Fin 2], P1, P2.
  split; [intro; reflexivity|]. split; [exact codes_categorical|]. split; [apply swap_q_one|]. split; [unfold two_bins; lia|]. split; [discriminate|]. split; [discriminate|].
  split; [reflexivity|]. split; [exact codes_table|]. split; [left; reflexivity|]. split; [exact codes_values|]. split; [reflexivity|].
  split; [intros names G; apply codes_group in G; subst names; split; reflexivity|].
  split; [exact R1|]. split; [exact R2|]. rewrite A1, A2. intro E. injection E as E _.
  pose proof shrink_bounds. assert (0 < cc)%R by (unfold cc, dd; lra). nra.
Qed.
End Runs.

(** Two columns whose categories occur together. *)
Definition two_codes : frame := {| fr_df := true; fr_float := true; fr_index := [0; 1]%Z; fr_cols := [(c_a, [Fin 3; Fin 5]); (c_b, [Fin 7; Fin 2])] |}.
Definition all_codes : option (label -> option N) := Some (fun _ => Some 4%N).
Lemma two_codes_together : seen_together (pipeline_binner two_bins all_codes false) two_codes [c_a; c_b] c_a [Fin 3; Fin 5].
Proof.
  assert (La : learned (pipeline_binner two_bins all_codes false) two_codes c_a 4 (fit_column 4 2 (1 # 1000000000) (1 # 10) [(Fin 3, 1%Q); (Fin 5, 1%Q)])).
  { exists [Fin 3; Fin 5], [1%Q; 1%Q]. split; [left; reflexivity|]. split; [split; [left; reflexivity|split; [discriminate|reflexivity]]|]. split; reflexivity. }
  assert (Lb : learned (pipeline_binner two_bins all_codes false) two_codes c_b 4 (fit_column 4 2 (1 # 1000000000) (1 # 10) [(Fin 7, 1%Q); (Fin 2, 1%Q)])).
  { exists [Fin 7; Fin 2], [1%Q; 1%Q]. split; [right; left; reflexivity|]. split; [split; [right; left; reflexivity|split; [discriminate|reflexivity]]|]. split; reflexivity. }
  intros q [E|[E|[]]]; injection E as <-.
  - exists 0%nat. split; [reflexivity|]. intros d [<- |[<- |[]]]; do 4 eexists; (split; [eassumption|]);
      [split; [left; reflexivity|]|split; [right; left; reflexivity|]]; (split; [reflexivity|]); vm_compute; discriminate.
  - exists 1%nat. split; [reflexivity|]. intros d [<- |[<- |[]]]; do 4 eexists; (split; [eassumption|]);
      [split; [left; reflexivity|]|split; [right; left; reflexivity|]]; (split; [reflexivity|]); vm_compute; discriminate.
Qed.
