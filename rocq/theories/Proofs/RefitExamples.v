(** Several trainings, and frames with the columns in two orders. *)
From Coq Require Import ZArith QArith List Bool Reals String Lra Lia Permutation.
From Verif.Proofs Require Import TrainFacts LinkFacts TrainExamples WholeExamples BinFitExamples.
From Verif.Model Require Import Num LexBins Train Predict Link Estimators Gbs WholeFit Frames Importance Diagnostics Refit.
From Verif.Spec Require Import RefitSpec.
From Verif.Proofs Require Import RefitFacts.
Import ListNotations.
Local Open Scope R_scope.

Lemma default_fit gm bppf erfinv bad k prior cfg rate accepted style fuel obs d : accepted (d_targets d) = true ->
  fit_object gm bppf erfinv bad k prior cfg rate accepted style fuel (new_object None obs) d =
  fit_object gm bppf erfinv bad k prior cfg rate accepted style fuel (new_object (Some (one_each d)) obs) d.
Proof. intro A. unfold fit_object. rewrite A. reflexivity. Qed.

(** One group, one iteration, no divergence: the loop. *)
Lemma one_loop f calc smth calb rate lss p0 fs p1 :
  f_ext f = false -> snd (new_factors calc smth calb rate 0 f (init_fstate f) 0 p0) = fs ->
  p1 = {| p_factors := vadd (p_factors p0) (gather fs (f_lex f)); p_exponents := p_exponents p0 |} ->
  lss p1 <= lss p0 * 2 -> exists st, 
  loop w_cfg [f] calc smth calb rate lss 1 (lss p0) (init_state [f] lss p0) = Some (Ok st) /\
  t_feats st = [{| s_fitted := true; s_factors := fs; s_old := zeros (S (f_finite f)); s_agg := Some fs; s_zero := false |}].
Proof.
  intros X Hf Hp1 Hl. 
  assert (E : iteration w_cfg [f] calc smth calb rate lss (lss p0) (init_state [f] lss p0) =
    Ok {| t_preds := p1; t_feats := [{| s_fitted := true; s_factors := fs; s_old := zeros (S (f_finite f)); s_agg := Some fs; s_zero := false |}];
          t_iter := 1; t_diverging := 0; t_isdiv := false; t_loss := lss p1; t_losschange := loss_change (lss p0) (lss p1);
          t_delta := factors_deviation [{| s_fitted := true; s_factors := fs; s_old := zeros (S (f_finite f)); s_agg := Some fs; s_zero := false |}] |}).
  { unfold iteration, init_state. cbn [map t_feats t_iter t_preds t_isdiv t_diverging t_loss features_pass].
    change (skipped w_cfg f 0) with false. cbn iota. unfold feature_iteration. cbn [c_aggregate w_cfg ex_cfg].
    destruct (new_factors calc smth calb rate 0 f (init_fstate f) 0 p0) as [un ff]. cbn [snd] in Hf. subst ff.
    unfold visit_factors, limit_factors. cbn [c_log c_aggregate w_cfg ex_cfg andb s_fitted init_fstate s_zero s_factors].
    unfold add_preds. rewrite X. rewrite <- Hp1. unfold is_diverged. rewrite (proj2 (Rltb_false _ _)) by exact Hl.
    cbn [andb]. reflexivity. }
  eexists. split.
  - erewrite loop_step; [|apply start_continues|exact E]. rewrite loop_end by reflexivity.
    unfold finish. cbn [t_feats forallb s_agg andb t_loss t_diverging]. rewrite andb_false_r. reflexivity.
  - reflexivity.
Qed.

(** Two groups, one iteration, no divergence. *)
Lemma two_pass gm bppf erfinv bad k prior g h rate D scale offset fs hs p0 p1 p2 :
  kind_scale k (map x_y D) (map x_w D) = Some scale ->
  kind_offset k scale (map x_prior D) (map x_w D) = offset ->
  let f := bind_group D 0 g in
  let f' := bind_group D 1 h in
  let calc := (fun i (_ : nat) p => map (estimate_value bad) (group_estimates gm bppf erfinv k [f; f'] (map x_y D) (map x_w D) i p)) in
  let smth := (fun i (_ : nat) p => group_smoother gm bppf erfinv bad k [g; h] [f; f'] (map x_y D) (map x_w D) i p) in
  let calb := kind_calibration k [f; f'] (map x_w D) in
  p0 = {| p_factors := prior_predictions scale offset (linked_column k prior D) (List.length D); p_exponents := zeros (List.length D) |} ->
  snd (new_factors calc smth calb rate 0 f (init_fstate f) 0 p0) = fs ->
  vadd (p_factors p0) (gather fs (f_lex f)) = p1 ->
  snd (new_factors calc smth calb rate 1 f' (init_fstate f') 0 {| p_factors := p1; p_exponents := p_exponents p0 |}) = hs ->
  vadd p1 (gather hs (f_lex f')) = p2 ->
  kind_loss bad k (map x_y D) (map x_w D) p2 <= kind_loss bad k (map x_y D) (map x_w D) (p_factors p0) * 2 ->
  whole_fit gm bppf erfinv bad k prior [g; h] w_cfg rate 1 D = Trained
    {| o_scale := scale; o_offset := offset;
       o_groups := [store f {| s_fitted := true; s_factors := fs; s_old := zeros (S (f_finite f)); s_agg := Some fs; s_zero := false |};
                    store f' {| s_fitted := true; s_factors := hs; s_old := zeros (S (f_finite f')); s_agg := Some hs; s_zero := false |}];
       o_iterations := 1; o_loss := kind_loss bad k (map x_y D) (map x_w D) p2 |}.
Proof.
  intros Hs Ho f f' calc smth calb Hp Hf Hp1 Hh Hp2 Hl. unfold whole_fit. rewrite Hs. cbv zeta. rewrite Ho. unfold train. cbv zeta.
  cbn [bind_groups]. fold f f'. rewrite <- Hp. fold calb. change (fun i (_ : nat) p => map (estimate_value bad) (group_estimates gm bppf erfinv k [f; f'] (map x_y D) (map x_w D) i p)) with calc.
  change (fun i (_ : nat) p => group_smoother gm bppf erfinv bad k [g; h] [f; f'] (map x_y D) (map x_w D) i p) with smth.
  clearbody calc smth calb.
  set (lss := fun p => kind_loss bad k (map x_y D) (map x_w D) (p_factors p)) in *.
  change (kind_loss bad k (map x_y D) (map x_w D) (p_factors p0)) with (lss p0) in Hl.
  set (p1' := {| p_factors := p1; p_exponents := p_exponents p0 |}) in *.
  set (p2' := {| p_factors := p2; p_exponents := p_exponents p0 |}).
  set (s1 := {| s_fitted := true; s_factors := fs; s_old := zeros (S (f_finite f)); s_agg := Some fs; s_zero := false |}).
  set (s2 := {| s_fitted := true; s_factors := hs; s_old := zeros (S (f_finite f')); s_agg := Some hs; s_zero := false |}).
  assert (E : iteration w_cfg [f; f'] calc smth calb rate lss (lss p0) (init_state [f; f'] lss p0) =
    Ok {| t_preds := p2'; t_feats := [s1; s2];
          t_iter := 1; t_diverging := 0; t_isdiv := false; t_loss := lss p2'; t_losschange := loss_change (lss p0) (lss p2');
          t_delta := factors_deviation [s1; s2] |}).
  { unfold iteration, init_state. cbn [map t_feats t_iter t_preds t_isdiv t_diverging t_loss features_pass].
    change (skipped w_cfg f 0) with false. change (skipped w_cfg f' 0) with false. cbn iota. unfold feature_iteration. cbn [c_aggregate w_cfg ex_cfg].
    destruct (new_factors calc smth calb rate 0 f (init_fstate f) 0 p0) as [un ff]. cbn [snd] in Hf. subst ff.
    unfold visit_factors at 1, limit_factors. cbn [c_log c_aggregate w_cfg ex_cfg andb s_fitted init_fstate s_zero s_factors].
    change (add_preds (f_ext f) p0 (gather fs (f_lex f))) with {| p_factors := vadd (p_factors p0) (gather fs (f_lex f)); p_exponents := p_exponents p0 |}.
    rewrite Hp1. fold p1'.
    destruct (new_factors calc smth calb rate 1 f' (init_fstate f') 0 p1') as [un' ff]. cbn [snd] in Hh. subst ff.
    unfold visit_factors, limit_factors. cbn [c_log c_aggregate w_cfg ex_cfg andb s_fitted init_fstate s_zero s_factors].
    change (add_preds (f_ext f') p1' (gather hs (f_lex f'))) with {| p_factors := vadd p1 (gather hs (f_lex f')); p_exponents := p_exponents p0 |}.
    rewrite Hp2. fold p2'.
    unfold is_diverged. rewrite (proj2 (Rltb_false _ _)) by (unfold lss at 2; cbn [p_factors p2']; exact Hl).
    cbn [andb]. reflexivity. }
  unfold fit_main. erewrite loop_step; [|apply start_continues|exact E].
  rewrite loop_end by reflexivity.
  unfold finish. cbn [t_feats forallb s_agg andb t_loss t_diverging s1 s2]. rewrite andb_false_r. reflexivity.
Qed.

Definition r_style (g : list label) : group := {| g_dim := List.length g; g_hier := false; g_mnl := false; g_smoother := keep_values |}.
Definition r_all (T : list target) : bool := true.
Definition c_a : label := LName "a".
Definition c_b : label := LName "b".
Definition r_target (y : R) : target := {| v_prior := None; v_y := y; v_w := 1 |}.
Definition both : list fnum := [Fin 0; Fin 1].
Definition frame_a : data := {| d_cols := [(c_a, both)]; d_targets := [r_target 1; r_target (-1)] |}.
Definition frame_ab : data := {| d_cols := [(c_a, both); (c_b, both)]; d_targets := [r_target 1; r_target (-1)] |}.
Definition frame_ba : data := {| d_cols := [(c_b, both); (c_a, both)]; d_targets := [r_target 1; r_target (-1)] |}.
(** Rows to predict. *)
Definition row_ab (a b : Q) : data := {| d_cols := [(c_a, [Fin a]); (c_b, [Fin b])]; d_targets := [r_target 0] |}.

Definition r_trained (v : R) : trained :=
  {| m_dim := 1; m_nbins := [2%Z]; m_ext := false; m_values := [v; - v]; m_missing := 0; m_smoother := true |}.
Definition r_one : model := {| o_scale := 0; o_offset := 0; o_groups := [r_trained (1/2)]; o_iterations := 1; o_loss := 1/4 |}.
Definition r_two : model := {| o_scale := 0; o_offset := 0; o_groups := [r_trained (1/2); r_trained (1/4)]; o_iterations := 1; o_loss := 1/16 |}.

Section Runs.
Variables (gm : R -> R) (bppf : R -> R -> R -> R) (erfinv : R -> R) (bad : R).
Definition g_kind : kind := GBSRegressor 0.
Definition d_one : list sample := data_rows [[both]] [r_target 1; r_target (-1)].
Definition d_two : list sample := data_rows [[both]; [both]] [r_target 1; r_target (-1)].

Lemma g_estimates a : map (estimate_value bad) (gbs_parameters 0 [0; 1]%nat 3 [1; -1] [1; 1] [a; - a]) = [(1 - a) / 2; - ((1 - a) / 2); 0].
Proof.
  unfold gbs_parameters. cbn [map2 map seq bin_total Nat.eqb]. unfold gbs_bin. rewrite !(proj2 (Reqb_false_iff _ _)) by lra.
  rewrite !(proj2 (Rltb_false _ _)) by (unfold Rdiv; apply Rmult_le_pos; [match goal with |- 0 <= ?e => first [replace e with (2 * (1 - a) ^ 2) by ring; pose proof (pow2_ge_0 (1 - a)); lra | replace e with 0 by ring; lra] end|left; apply Rinv_0_lt_compat; lra]).
  cbn [map estimate_value]. f_equal; [field|f_equal; [field|f_equal; field]].
Qed.
Lemma g_lex D i : map (fun s => x_bins s i) D = [[Fin 0]; [Fin 1]] ->
  f_lex (bind_group D i (r_style [c_a])) = [0; 1]%nat /\ f_finite (bind_group D i (r_style [c_a])) = 2%nat.
Proof. intro H. unfold f_lex, f_finite, f_nbins, bind_group. cbn [f_rows f_dim]. rewrite H. split; reflexivity. Qed.

Lemma g_scale : kind_scale g_kind [1; -1] [1; 1] = Some 0.
Proof. unfold g_kind, kind_scale, gbs_global_scale. cbn [sumR map2]. rewrite (proj2 (Reqb_false_iff _ _)) by lra. f_equal. field. Qed.
Lemma g_loss a : kind_loss bad g_kind [1; -1] [1; 1] [a; - a] = (1 - a) ^ 2.
Proof.
  unfold g_kind, kind_loss, gbs_loss. cbn [kind_link unlink_func map map2 sumR]. rewrite (proj2 (Reqb_false_iff 1 0)), (proj2 (Reqb_false_iff (-1) 0)) by lra.
  cbn [map2 sumR]. rewrite (proj2 (Reqb_false_iff _ 0)) by lra. field.
Qed.

Lemma g_factors gs fl i f p (HF : nth_error fl i = Some f) (HG : nth_error gs i = Some (r_style [c_a])) a :
  f_lex f = [0; 1]%nat -> f_finite f = 2%nat -> f_mnl f = false -> p_factors p = [a; - a] ->
  snd (new_factors (fun i (_ : nat) p => map (estimate_value bad) (group_estimates gm bppf erfinv g_kind fl [1; -1] [1; 1] i p))
    (fun i (_ : nat) p => group_smoother gm bppf erfinv bad g_kind gs fl [1; -1] [1; 1] i p)
    (kind_calibration g_kind fl [1; 1]) ex_rate i f (init_fstate f) 0 p) = [(1 - a) / 2; - ((1 - a) / 2); 0].
Proof.
  intros L F M P. unfold new_factors. cbv zeta. cbn [snd]. unfold group_smoother, group_estimates. rewrite HF, HG, L, F, M, P.
  cbn [estimates g_kind]. rewrite g_estimates. cbn [seq map firstn nth s_zero init_fstate r_style g_smoother keep_values nth_error app kind_calibration].
  unfold ex_rate. rewrite !Rmult_1_l, Rmult_1_r. reflexivity.
Qed.

Lemma run_one : whole_fit gm bppf erfinv bad g_kind false [r_style [c_a]] w_cfg ex_rate 1 d_one = Trained r_one.
Proof.
  destruct (g_lex d_one 0 eq_refl) as [L F].
  erewrite (one_pass gm bppf erfinv bad g_kind false _ ex_rate d_one 0 0 [1/2; -(1/2); 0]
    {| p_factors := [0; 0]; p_exponents := zeros 2 |} [1/2; -(1/2)]).
  - unfold r_one. f_equal. f_equal. change (map x_y d_one) with [1; -1]. change (map x_w d_one) with [1; 1]. rewrite g_loss. field.
  - exact g_scale.
  - reflexivity.
  - reflexivity.
  - change (map x_y d_one) with [1; -1]. change (map x_w d_one) with [1; 1].
    rewrite (g_factors [r_style [c_a]] [bind_group d_one 0 (r_style [c_a])] 0 _ _ eq_refl eq_refl 0 L F eq_refl) by (cbn [p_factors]; rewrite Ropp_0; reflexivity). repeat (f_equal; try lra).
  - rewrite L. cbn. repeat (f_equal; try lra).
  - change (map x_y d_one) with [1; -1]. change (map x_w d_one) with [1; 1]. cbn [p_factors]. rewrite g_loss. 
    replace [0; 0] with [0; - 0] by (rewrite Ropp_0; reflexivity). rewrite g_loss. lra.
Qed.
Lemma run_two : whole_fit gm bppf erfinv bad g_kind false [r_style [c_a]; r_style [c_a]] w_cfg ex_rate 1 d_two = Trained r_two.
Proof.
  destruct (g_lex d_two 0 eq_refl) as [L F]. destruct (g_lex d_two 1 eq_refl) as [L' F'].
  erewrite (two_pass gm bppf erfinv bad g_kind false _ _ ex_rate d_two 0 0 [1/2; -(1/2); 0] [1/4; -(1/4); 0]
    {| p_factors := [0; 0]; p_exponents := zeros 2 |} [1/2; -(1/2)] [3/4; -(3/4)]).
  - unfold r_two. f_equal. f_equal. change (map x_y d_two) with [1; -1]. change (map x_w d_two) with [1; 1]. rewrite g_loss. field.
  - exact g_scale.
  - reflexivity.
  - reflexivity.
  - change (map x_y d_two) with [1; -1]. change (map x_w d_two) with [1; 1].
    rewrite (g_factors [r_style [c_a]; r_style [c_a]] [bind_group d_two 0 (r_style [c_a]); bind_group d_two 1 (r_style [c_a])] 0 _ _ eq_refl eq_refl 0 L F eq_refl) by (cbn [p_factors]; rewrite Ropp_0; reflexivity). repeat (f_equal; try lra).
  - rewrite L. cbn. repeat (f_equal; try lra).
  - change (map x_y d_two) with [1; -1]. change (map x_w d_two) with [1; 1].
    rewrite (g_factors [r_style [c_a]; r_style [c_a]] [bind_group d_two 0 (r_style [c_a]); bind_group d_two 1 (r_style [c_a])] 1 _ _ eq_refl eq_refl (1/2) L' F' eq_refl) by reflexivity. repeat (f_equal; try lra).
  - rewrite L'. cbn. repeat (f_equal; try lra).
  - change (map x_y d_two) with [1; -1]. change (map x_w d_two) with [1; 1]. cbn [p_factors]. rewrite g_loss.
    replace [0; 0] with [0; - 0] by (rewrite Ropp_0; reflexivity). rewrite g_loss. lra.
Qed.

Notation g_fit := (fit_object gm bppf erfinv bad g_kind false w_cfg ex_rate r_all r_style 1).
Lemma no_prior : false = true -> forall a, g_kind <> GBSRegressor a.
Proof. discriminate. Qed.

Lemma fitted_two o g h d : b_groups o = Some [[g]; [h]] -> d_targets d = [r_target 1; r_target (-1)] ->
  read_groups (d_cols d) [[g]; [h]] = Some [[both]; [both]] ->
  fst (g_fit o d) = None /\ forall X rows, read_groups (d_cols X) [[g]; [h]] = Some rows ->
    predict_frame g_kind false (snd (g_fit o d)) X = Some (whole_predict g_kind false r_two (data_rows rows (d_targets X))).
Proof.
  intros G T Rd. pose proof run_two as H. unfold d_two in H. rewrite <- T in H.
  change [r_style [c_a]; r_style [c_a]] with (map r_style [[g]; [h]]) in H. split.
  - pose proof (fit_is_whole gm bppf erfinv bad g_kind false w_cfg ex_rate r_all r_style no_prior 1 o _ d _ G eq_refl Rd) as F.
    rewrite H in F. apply F.
  - intros X rows RX. exact (predict_is_whole gm bppf erfinv bad g_kind false w_cfg ex_rate r_all r_style no_prior 1 o _ d _ r_two X rows G eq_refl Rd H RX).
Qed.
Lemma fitted_one o g d : b_groups o = Some [[g]] -> d_targets d = [r_target 1; r_target (-1)] ->
  read_groups (d_cols d) [[g]] = Some [[both]] ->
  fst (g_fit o d) = None /\ forall X rows, read_groups (d_cols X) [[g]] = Some rows ->
    predict_frame g_kind false (snd (g_fit o d)) X = Some (whole_predict g_kind false r_one (data_rows rows (d_targets X))).
Proof.
  intros G T Rd. pose proof run_one as H. unfold d_one in H. rewrite <- T in H.
  change [r_style [c_a]] with (map r_style [[g]]) in H. split.
  - pose proof (fit_is_whole gm bppf erfinv bad g_kind false w_cfg ex_rate r_all r_style no_prior 1 o _ d _ G eq_refl Rd) as F.
    rewrite H in F. apply F.
  - intros X rows RX. exact (predict_is_whole gm bppf erfinv bad g_kind false w_cfg ex_rate r_all r_style no_prior 1 o _ d _ r_one X rows G eq_refl Rd H RX).
Qed.
Ltac fin := cbn; change (Pos.to_nat 1) with 1%nat; cbn; f_equal; field.
Lemma predict_two_01 : whole_predict g_kind false r_two (data_rows [[[Fin 0]]; [[Fin 1]]] [r_target 0]) = [1/4].
Proof. fin. Qed.
Lemma predict_two_10 : whole_predict g_kind false r_two (data_rows [[[Fin 1]]; [[Fin 0]]] [r_target 0]) = [-(1/4)].
Proof. fin. Qed.
Lemma predict_two_00 : whole_predict g_kind false r_two (data_rows [[[Fin 0]]; [[Fin 0]]] [r_target 0]) = [3/4].
Proof. fin. Qed.
Lemma predict_one_0 : whole_predict g_kind false r_one (data_rows [[[Fin 0]]] [r_target 0]) = [1/2].
Proof. fin. Qed.
Lemma one_neq (a b : R) : a <> b -> [a] <> [b].
Proof. intros H E. apply H. injection E. auto. Qed.

(** The same data, columns exchanged. *)
Lemma column_order : frame_ba = with_columns frame_ab (d_cols frame_ba) /\ Permutation (d_cols frame_ab) (d_cols frame_ba) /\
  fst (g_fit (new_object None []) frame_ab) = None /\ fst (g_fit (new_object None []) frame_ba) = None /\
  predict_frame g_kind false (snd (g_fit (new_object None []) frame_ab)) (row_ab 0 1) = Some [1/4] /\
  predict_frame g_kind false (snd (g_fit (new_object None []) frame_ba)) (row_ab 0 1) = Some [-(1/4)].
Proof.
  rewrite !(default_fit gm bppf erfinv bad g_kind false w_cfg ex_rate r_all r_style 1) by reflexivity.
  destruct (fitted_two (fresh (one_each frame_ab)) c_a c_b frame_ab eq_refl eq_refl eq_refl) as [E1 P1].
  destruct (fitted_two (fresh (one_each frame_ba)) c_b c_a frame_ba eq_refl eq_refl eq_refl) as [E2 P2].
  split; [reflexivity|]. split; [apply perm_swap|]. split; [exact E1|]. split; [exact E2|]. split.
  - rewrite <- predict_two_01. exact (P1 (row_ab 0 1) [[[Fin 0]]; [[Fin 1]]] eq_refl).
  - rewrite <- predict_two_10. exact (P2 (row_ab 0 1) [[[Fin 1]]; [[Fin 0]]] eq_refl).
Qed.

(** A column that was not there in the first training is ignored, one that is gone is
    missed. *)
Lemma new_column : fst (g_fit (new_object None []) frame_a) = None /\
  fst (g_fit (new_object None []) frame_ab) = None /\
  predict_frame g_kind false (snd (g_fit (new_object None []) frame_ab)) (row_ab 0 0) = Some [3/4] /\
  fst (g_fit (snd (g_fit (new_object None []) frame_a)) frame_ab) = None /\
  predict_frame g_kind false (snd (g_fit (snd (g_fit (new_object None []) frame_a)) frame_ab)) (row_ab 0 0) = Some [1/2].
Proof.
  rewrite !(default_fit gm bppf erfinv bad g_kind false w_cfg ex_rate r_all r_style 1) by reflexivity.
  destruct (fitted_one (fresh (one_each frame_a)) c_a frame_a eq_refl eq_refl eq_refl) as [E1 P1].
  destruct (fitted_two (fresh (one_each frame_ab)) c_a c_b frame_ab eq_refl eq_refl eq_refl) as [E2 P2].
  assert (G : b_groups (snd (g_fit (fresh (one_each frame_a)) frame_a)) = Some [[c_a]]) by (apply groups_stay; reflexivity).
  destruct (fitted_one _ c_a frame_ab G eq_refl eq_refl) as [E3 P3].
  split; [exact E1|]. split; [exact E2|]. split; [|split; [exact E3|]].
  - rewrite <- predict_two_00. exact (P2 (row_ab 0 0) [[[Fin 0]]; [[Fin 0]]] eq_refl).
  - rewrite <- predict_one_0. exact (P3 (row_ab 0 0) [[[Fin 0]]] eq_refl).
Qed.
Lemma gone_column : fst (g_fit (new_object None []) frame_a) = None /\
  fst (g_fit (snd (g_fit (new_object None []) frame_ab)) frame_a) = Some MissingColumn.
Proof.
  rewrite !(default_fit gm bppf erfinv bad g_kind false w_cfg ex_rate r_all r_style 1) by reflexivity.
  destruct (fitted_one (fresh (one_each frame_a)) c_a frame_a eq_refl eq_refl eq_refl) as [E1 _]. split; [exact E1|].
  assert (G : b_groups (snd (g_fit (fresh (one_each frame_ab)) frame_ab)) = Some [[c_a]; [c_b]]) by (apply groups_stay; reflexivity).
  etransitivity; [exact (fit_no_column gm bppf erfinv bad g_kind false w_cfg ex_rate r_all r_style 1 _ _ frame_a G eq_refl eq_refl)|].
  change (map v_y (d_targets frame_a)) with [1; -1]. change (map v_w (d_targets frame_a)) with [1; 1]. rewrite g_scale. reflexivity.
Qed.
Lemma again : fst (g_fit (fresh [[c_a]]) frame_a) = None /\ fst (g_fit (snd (g_fit (fresh [[c_a]]) frame_a)) frame_a) = None.
Proof.
  destruct (fitted_one (fresh [[c_a]]) c_a frame_a eq_refl eq_refl eq_refl) as [E1 _]. split; [exact E1|].
  assert (G : b_groups (snd (g_fit (fresh [[c_a]]) frame_a)) = Some [[c_a]]) by (apply groups_stay; reflexivity).
  apply (fitted_one _ c_a frame_a G eq_refl eq_refl).
Qed.
Lemma entries_one : b_importances (snd (g_fit (fresh [[c_a]]) frame_a)) = [([CName "a"], 1/2)].
Proof.
  destruct (fit_eq gm bppf erfinv bad g_kind false w_cfg ex_rate r_all r_style no_prior 1 (fresh [[c_a]]) [[c_a]] frame_a [[both]] 0 eq_refl eq_refl eq_refl g_scale)
    as (o3 & G3 & _ & B3 & I3 & _ & E). rewrite E. clear E.
  change (data_rows [[both]] (d_targets frame_a)) with d_one in *. change (map r_style [[c_a]]) with [r_style [c_a]] in *.
  change (map v_y (d_targets frame_a)) with [1; -1]. change (map v_w (d_targets frame_a)) with [1; 1].
  destruct (g_lex d_one 0 eq_refl) as [L F]. cbn [bind_groups] in *. set (f := bind_group d_one 0 (r_style [c_a])) in *.
  match goal with |- context [loop _ _ ?c ?s ?cb ?r ?l _ _ (init_state _ _ ?p)] =>
    destruct (one_loop f c s cb r l p [1/2; -(1/2); 0] {| p_factors := [1/2; -(1/2)]; p_exponents := zeros 2 |}) as (st & EL & TF) end.
  - reflexivity.
  - rewrite (g_factors [r_style [c_a]] [f] 0 f _ eq_refl eq_refl 0 L F eq_refl) by (cbn; rewrite Ropp_0; reflexivity). repeat (f_equal; try lra).
  - rewrite L. cbn. repeat (f_equal; try lra).
  - cbv beta. cbn [p_factors]. rewrite g_loss. cbn [linked_column prior_predictions d_one data_rows seq map2 List.length repeat].
    replace [0; 0] with [0; - 0] by (rewrite Ropp_0; reflexivity). change (repeat 0 (List.length _)) with [0; 0]. 
    replace [0; 0] with [0; - 0] by (rewrite Ropp_0; reflexivity). rewrite g_loss. lra.
  - rewrite EL. cbn [snd finished b_importances]. rewrite G3, B3, I3, TF. cbn [fresh new_object b_importances set_feature_importances app map map2 combine column_of c_a].
    unfold set_feature_importances. cbn [combine map2 app fst snd s_agg]. unfold bin_weighted_average. rewrite L. unfold bin_rows. cbn.
    rewrite !Rminus_0_r, (Rabs_pos_eq (1/2)), (Rabs_left (-(1/2))), Rabs_R0 by lra. apply (f_equal (fun v => [([CName "a"], v)])). field.
Qed.
Lemma halved : get_feature_importances (b_importances (snd (g_fit (fresh [[c_a]]) frame_a))) = Importances [("a"%string, 1)] /\
  get_feature_importances (b_importances (snd (g_fit (snd (g_fit (fresh [[c_a]]) frame_a)) frame_a))) = Importances [("a"%string, 1 / 2)].
Proof.
  assert (H : get_feature_importances (b_importances (snd (g_fit (fresh [[c_a]]) frame_a))) = Importances [("a"%string, 1)]).
  { rewrite entries_one. unfold get_feature_importances. cbn [map snd fst]. unfold get_normalized_values. cbn [sumR]. cbv zeta. unfold rounds_to_zero.
    rewrite Rabs_pos_eq by lra. rewrite (proj2 (Rleb_false _ _)) by lra. cbn. repeat f_equal. field. }
  split; [exact H|].
  pose proof (shares_halved gm bppf erfinv bad g_kind false w_cfg ex_rate r_all r_style 1 [[c_a]] frame_a ["a"%string] [("a"%string, 1)] no_prior (proj1 again)) as S.
  cbv zeta in S. specialize (S ltac:(rewrite entries_one; reflexivity) ltac:(constructor; [intros []|constructor]) H).
  cbn [map snd sumR fst] in S. apply S. lra.
Qed.
End Runs.

Lemma ab_ba : NoDup (map fst (d_cols frame_ab)) /\ Permutation (d_cols frame_ab) (d_cols frame_ba).
Proof.
  split; [|apply perm_swap]. cbn. constructor; [intros [H|[]]; discriminate|]. constructor; [intros []|constructor].
Qed.
