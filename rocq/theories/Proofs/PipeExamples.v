(** Pipelines on two rows. *)
From Coq Require Import ZArith NArith QArith Qreals List Bool Reals String Lia Lqa Lra.
From Verif.Proofs Require Import FlagFacts TrainExamples WholeExamples BinFitExamples FrameFacts RefitFacts RefitExamples.
From Verif.Model Require Import Num BinarySearch Flags Ecdf BinTransform Frames LexBins Train Predict Link Estimators Gbs WholeFit Refit Pipe.
From Verif.Spec Require Import SearchSpec BinningSpec FrameSpec RefitSpec PipeSpec PredictSpec.
Import ListNotations.

Definition c_w : label := LName "w".
(** Two rows with the values 10 and 20 and the same weight. *)
Definition raw (w : list fnum) : frame := {| fr_df := true; fr_float := true; fr_index := [0; 1]%Z; fr_cols := [(c_a, [Fin 10; Fin 20]); (c_w, w)] |}.
Definition one_one : list fnum := [Fin 1; Fin 1].
Definition two_bins (c : label) : Z := 2%Z.
(** [feature_properties] that name the column a only. *)
Definition only_a : option (label -> option N) := Some (fun c => if label_eqb c c_a then Some 1%N else None).
Definition pipe (props : option (label -> option N)) : pipeline := {| l_binner := pipeline_binner two_bins props false; l_object := fresh [[c_a]] |}.

Lemma raw_table w : List.length w = 2%nat -> table (raw w).
Proof.
  intro L. split.
  - cbn. constructor; [intros [H|[]]; discriminate|]. constructor; [intros []|constructor].
  - cbn. intros c v [E|[E|[]]]; injection E as <- <-; [reflexivity|exact L].
Qed.
Lemma only_a_continuous : continuous_column only_a c_a.
Proof. exists 1%N. repeat split. Qed.
Lemma only_a_weight : undeclared only_a (Some c_w).
Proof. intros l E p H. injection E as <-. discriminate. Qed.

Definition learned_a : list (label * fit_result) := [(c_a, fit_column 1 2 (1 # 1000000000) (1 # 10) [(Fin 10, 1%Q); (Fin 20, 1%Q)])].
Definition binner_a : binner := with_fitted (pipeline_binner two_bins only_a false) learned_a.
Lemma raw_fitted : bin_fit (pipeline_binner two_bins only_a false) (raw one_one) = FOk binner_a.
Proof. vm_compute. reflexivity. Qed.
Definition binned : frame := {| fr_df := true; fr_float := true; fr_index := [0; 1]%Z; fr_cols := [(c_a, both); (c_w, one_one)] |}.
Lemma raw_binned : fst (bin_transform binner_a (raw one_one)) = FOk binned.
Proof. vm_compute. reflexivity. Qed.

Section Runs.
Variables (gm : R -> R) (bppf : R -> R -> R -> R) (erfinv : R -> R) (bad : R).
Notation run := (pipe_fit gm bppf erfinv bad g_kind (Some c_w) None w_cfg ex_rate r_all r_style 1).
Local Open Scope R_scope.

Lemma binned_targets : train_targets (Some c_w) None binned [1; -1] = Some [r_target 1; r_target (-1)].
Proof. unfold train_targets, read_weights, read_priors. cbn. unfold r_target, Q2R. cbn. rewrite Rinv_1, Rmult_1_l. reflexivity. Qed.

Lemma pipe_runs : exists P1, run (pipe only_a) (raw one_one) [1; -1] = (None, P1) /\
  pipe_predict g_kind (Some c_w) None P1 (raw one_one) = Some [1 / 2; - (1 / 2)].
Proof.
  set (d := {| d_cols := feature_columns (Some c_w) None binned; d_targets := [r_target 1; r_target (-1)] |}).
  destruct (fitted_one gm bppf erfinv bad (fresh [[c_a]]) c_a d eq_refl eq_refl eq_refl) as [E P].
  destruct (fit_object gm bppf erfinv bad g_kind false w_cfg ex_rate r_all r_style 1 (fresh [[c_a]]) d) as [e o] eqn:F. cbn [fst snd] in E, P. subst e.
  exists {| l_binner := binner_a; l_object := o |}. split.
  - unfold pipe_fit. cbn [l_binner l_object pipe]. rewrite raw_fitted. cbv zeta. rewrite raw_binned, binned_targets. cbn [has_prior]. fold d. rewrite F. reflexivity.
  - unfold pipe_predict. cbn [l_binner l_object]. rewrite raw_binned. cbn [predict_targets read_priors fr_index binned map has_prior].
    match goal with |- predict_frame _ _ _ ?X = _ => rewrite (P X [[both]] eq_refl) end. cbn [d_targets].
    apply f_equal. cbn. change (Pos.to_nat 1) with 1%nat. cbn. f_equal; [|f_equal]; field.
Qed.
(** Without [feature_properties], the weights 1 and 1 become the bin numbers 0 and 0. *)
Lemma pipe_fails : fst (run (pipe None) (raw one_one) [1; -1]) = Some (Fitting NoScale).
Proof.
  unfold pipe_fit. cbn [l_binner l_object pipe].
  assert (F : bin_fit (pipeline_binner two_bins None false) (raw one_one) = FOk (with_fitted (pipeline_binner two_bins None false)
    [(c_a, fit_column 1 2 (1 # 1000000000) (1 # 10) [(Fin 10, 1%Q); (Fin 20, 1%Q)]); (c_w, fit_column 1 2 (1 # 1000000000) (1 # 10) [(Fin 1, 1%Q); (Fin 1, 1%Q)])])) by (vm_compute; reflexivity).
  rewrite F. cbv zeta.
  match goal with |- context [bin_transform ?b _] => assert (B : fst (bin_transform b (raw one_one)) =
    FOk {| fr_df := true; fr_float := true; fr_index := [0; 1]%Z; fr_cols := [(c_a, both); (c_w, [Fin 0; Fin 0])] |}) by (vm_compute; reflexivity) end.
  rewrite B.
  assert (T : train_targets (Some c_w) None {| fr_df := true; fr_float := true; fr_index := [0; 1]%Z; fr_cols := [(c_a, both); (c_w, [Fin 0; Fin 0])] |} [1; -1] =
    Some [{| v_prior := None; v_y := 1; v_w := 0 |}; {| v_prior := None; v_y := -1; v_w := 0 |}]).
  { unfold train_targets, read_weights, read_priors. cbn. unfold Q2R. cbn. rewrite !Rmult_0_l. reflexivity. }
  rewrite T. unfold fit_object. cbn [r_all negb d_targets]. cbv zeta.
  match goal with |- context [b_scale (init_scale ?k ?p ?o ?W)] => change (b_scale (init_scale k p o W)) with (kind_scale k (map v_y W) (map v_w W)) end.
  cbn [map v_y v_w]. unfold kind_scale, g_kind, gbs_global_scale. cbn [sumR]. rewrite (proj2 (LinkFacts.Reqb_iff _ _)) by lra. reflexivity.
Qed.
End Runs.

Lemma cube_mono q r : (q <= r -> q * q * q <= r * r * r)%Q.
Proof.
  intro H. assert (E : (0 <= (r - q) * ((r + q * (1 # 2)) * (r + q * (1 # 2)) + (3 # 4) * (q * q)))%Q).
  { apply Qmult_le_0_compat; [Lqa.lra|]. assert (S : forall x, (0 <= x * x)%Q).
    { intro x. destruct (Qlt_le_dec x 0) as [L|L]; [setoid_replace (x * x)%Q with ((- x) * (- x))%Q by ring|]; apply Qmult_le_0_compat; Lqa.lra. }
    pose proof (S (r + q * (1 # 2))%Q). pose proof (S q). Lqa.lra. }
  setoid_replace ((r - q) * ((r + q * (1 # 2)) * (r + q * (1 # 2)) + (3 # 4) * (q * q)))%Q with (r * r * r - q * q * q)%Q in E by ring. Lqa.lra.
Qed.
Lemma cube_order : order_preserving (fun q => q * q * q)%Q.
Proof.
  intros q r. split; [|apply cube_mono]. intro H. destruct (Qlt_le_dec r q) as [L|L]; [exfalso|exact L].
  assert (E : (0 < (q - r) * ((r + q * (1 # 2)) * (r + q * (1 # 2)) + (3 # 4) * (q * q)))%Q).
  { assert (S : forall x, (0 <= x * x)%Q).
    { intro x. destruct (Qlt_le_dec x 0) as [L0|L0]; [setoid_replace (x * x)%Q with ((- x) * (- x))%Q by ring|]; apply Qmult_le_0_compat; Lqa.lra. }
    assert (P : (0 < (r + q * (1 # 2)) * (r + q * (1 # 2)) + (3 # 4) * (q * q))%Q).
    { pose proof (S (r + q * (1 # 2))%Q). pose proof (S q).
      destruct (Qeq_dec q 0) as [Z|Z].
      - assert (Pr : (0 < r * r)%Q) by (setoid_replace (r * r)%Q with ((- r) * (- r))%Q by ring; apply Qmult_lt_0_compat; Lqa.lra).
        setoid_replace ((r + q * (1 # 2)) * (r + q * (1 # 2)) + (3 # 4) * (q * q))%Q with (r * r)%Q by (rewrite Z; ring). exact Pr.
      - assert (Pq : (0 < q * q)%Q).
        { destruct (Qlt_le_dec q 0) as [L0|L0]; [setoid_replace (q * q)%Q with ((- q) * (- q))%Q by ring; apply Qmult_lt_0_compat; Lqa.lra|].
          apply Qle_lteq in L0. destruct L0 as [L0|L0]; [apply Qmult_lt_0_compat; Lqa.lra|]. exfalso. apply Z. Lqa.lra. }
        Lqa.lra. }
    apply Qmult_lt_0_compat; Lqa.lra. }
  setoid_replace ((q - r) * ((r + q * (1 # 2)) * (r + q * (1 # 2)) + (3 # 4) * (q * q)))%Q with (q * q * q - r * r * r)%Q in E by ring. Lqa.lra.
Qed.
Lemma spread_two a b : (a < b)%Q -> well_spread [Fin a; Fin b].
Proof.
  intros H x y u v Hx Hy Hu Hv L. cbn in Hx, Hy, Hu, Hv.
  destruct Hx as [Hx|[Hx|[]]], Hy as [Hy|[Hy|[]]], Hu as [Hu|[Hu|[]]], Hv as [Hv|[Hv|[]]];
    injection Hx as <-; injection Hy as <-; injection Hu as <-; injection Hv as <-; Lqa.lra.
Qed.
Lemma cube_ok : order_preserving (fun q => q * q * q)%Q /\ column_is (raw one_one) c_a [Fin 10; Fin 20] /\
  well_spread [Fin 10; Fin 20] /\ well_spread (map (on_values (fun q => q * q * q)%Q) [Fin 10; Fin 20]).
Proof. split; [exact cube_order|]. split; [left; reflexivity|]. split; apply spread_two; reflexivity. Qed.
Lemma raw_constant : constant_but c_a (raw one_one) /\ two_bins c_a = 2%Z.
Proof.
  split; [|reflexivity]. intros d x i j [E|[E|[]]] N Hi Hj; injection E as <- <-; [exfalso; apply N; reflexivity|].
  cbn in Hi, Hj. destruct i as [|[|i]], j as [|[|j]]; try lia; reflexivity.
Qed.
Lemma one_hypotheses : table (raw one_one) /\ undeclared only_a (Some c_w) /\ undeclared only_a None.
Proof. split; [exact (raw_table one_one eq_refl)|]. split; [exact only_a_weight|]. intros l E. discriminate E. Qed.
