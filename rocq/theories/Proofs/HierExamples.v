(** A training with a hierarchical group, after its first iteration. *)
From Coq Require Import ZArith QArith List Bool Reals Lra Lia.
From Verif.Model Require Import Num LexBins Train Predict Link Estimators Gbs WholeFit Regularize BinSmoothers.
From Verif.Spec Require Import TrainSpec HierSpec.
From Verif.Proofs Require Import TrainFacts LinkFacts TrainExamples WholeExamples TrainHistory HierFacts HierWhole.
Import ListNotations.
Local Open Scope R_scope.

Definition h_cfg : settings := ex_cfg true false true 1 2.
Definition h_group : group := {| g_dim := 1; g_hier := true; g_mnl := false; g_smoother := explicit_mean |}.

Section Run.
Variables (gm : R -> R) (bppf : R -> R -> R -> R) (erfinv : R -> R) (bad : R).
Let a := 1201/100.
Let f := bind_group heavy 0 h_group.
Let p0 := {| p_factors := [1/1000; 1/1000]; p_exponents := zeros 2 |}.
Let p1 := {| p_factors := [1/1000 + w_amp a; 1/1000 - w_amp a]; p_exponents := zeros 2 |}.
Let calc := fun (i it : nat) (p : preds) => map (estimate_value bad) (group_estimates gm bppf erfinv LocationRegressor [f] (map x_y heavy) (map x_w heavy) i p).
Let smth := fun (i it : nat) (p : preds) => group_smoother gm bppf erfinv bad LocationRegressor [h_group] [f] (map x_y heavy) (map x_w heavy) i p.
Let calb := kind_calibration LocationRegressor [f] (map x_w heavy).
Let lss := fun p => kind_loss bad LocationRegressor (map x_y heavy) (map x_w heavy) (p_factors p).
Lemma h_factors : snd (new_factors calc smth calb ex_rate 0 f (init_fstate f) 0 p0) = w_factors a.
Proof.
  assert (Ha : 0 < a) by (unfold a; lra).
  assert (L : f_lex f = [0; 1]%nat) by reflexivity. assert (Fn : f_finite f = 2%nat) by reflexivity.
  assert (Mn : f_mnl f = false) by reflexivity.
  unfold calc, smth, calb. clear calc smth calb lss. clearbody f.
  unfold new_factors. cbv zeta. cbn [snd]. unfold group_smoother, group_estimates. cbn [nth_error]. rewrite L, Fn.
  cbn [estimates]. change (map x_y heavy) with [1; -1]. change (map x_w heavy) with [2; 2]. unfold p0. cbn [p_factors].
  rewrite heavy_estimates. fold a. rewrite Mn. cbn [map estimate_value estimate_uncertainty nth seq firstn s_zero init_fstate].
  cbn [h_group g_smoother]. unfold explicit_mean, cut_unseen, weighted_mean_bins.
  rewrite w_smoothed by auto. unfold bincounts. cbn [map seq nth bin_total Nat.eqb].
  rewrite !(proj2 (Reqb_false_iff _ _)) by lra. cbn [app]. unfold ex_rate. unfold kind_calibration, location_calibration. cbn [nth_error].
  rewrite L, Fn, Mn. rewrite <- (w_calibrated a) by auto.
  unfold bincounts. cbn [map seq bin_total Nat.eqb]. f_equal; repeat (f_equal; try lra).
Qed.
Let s1 := {| s_fitted := true; s_factors := w_factors a; s_old := zeros (S (f_finite f)); s_agg := Some (w_factors a); s_zero := false |}.
Lemma h_state : training_state gm bppf erfinv bad LocationRegressor false [h_group] h_cfg ex_rate heavy (1/1000) (1/1000)
  {| t_preds := p1; t_feats := [s1]; t_iter := 1; t_diverging := 0; t_isdiv := false; t_loss := lss p1;
     t_losschange := loss_change (lss p0) (lss p1); t_delta := factors_deviation [s1] |}.
Proof.
  assert (Ha : 0 < a) by (unfold a; lra). pose proof (w_amp_bounds a Ha) as Hb.
  assert (L : f_lex f = [0; 1]%nat) by reflexivity.
  assert (Hl : lss p1 <= lss p0 * 2).
  { unfold lss, p1, p0. cbn [kind_loss kind_link p_factors heavy w_row map x_y x_w]. unfold squared_loss. cbn. nra. }
  unfold training_state. cbv zeta. cbn [bind_groups]. fold f. change (prior_predictions (1/1000) (1/1000) (linked_column LocationRegressor false heavy) (length heavy)) with [1/1000; 1/1000].
  change (zeros (length heavy)) with (zeros 2). fold p0. fold calc. fold smth. fold calb. fold lss.
  apply reached_next with (st := init_state [f] lss p0); [apply reached_start| |].
  - unfold continues, check_stop, stop_iterations, stop_factor_change, stop_loss_change, init_state.
    cbn [t_delta t_losschange t_iter c_maxiter c_minfactor c_minloss h_cfg ex_cfg Nat.leb]. rewrite (proj2 (Rleb_false _ _)) by lra.
    rewrite (proj2 (Rleb_false _ _)); [reflexivity|]. pose proof (Rabs_pos (IZR (10 ^ 20))). lra.
  - unfold iteration, init_state. cbn [map t_feats t_iter t_preds t_isdiv t_diverging t_loss features_pass].
    change (skipped h_cfg f 0) with false. cbn iota. unfold feature_iteration. cbn [c_aggregate h_cfg ex_cfg].
    pose proof h_factors as Hf. destruct (new_factors calc smth calb ex_rate 0 f (init_fstate f) 0 p0) as [un ff]. cbn [snd] in Hf. subst ff.
    unfold visit_factors, limit_factors. cbn [c_log c_aggregate h_cfg ex_cfg andb s_fitted init_fstate s_zero s_factors].
    change (add_preds (f_ext f) p0 (gather (w_factors a) (f_lex f))) with {| p_factors := vadd (p_factors p0) (gather (w_factors a) (f_lex f)); p_exponents := p_exponents p0 |}.
    rewrite L. assert (E : {| p_factors := vadd (p_factors p0) (gather (w_factors a) [0; 1]%nat); p_exponents := p_exponents p0 |} = p1).
    { unfold p0, p1. cbn [p_factors p_exponents]. f_equal. }
    rewrite E. unfold is_diverged. rewrite (proj2 (Rltb_false _ _)) by exact Hl. cbn [andb]. reflexivity.
Qed.
(** The same after the first iteration with a further group that is not hierarchical. *)
Lemma h_both : exists st,
  training_state gm bppf erfinv bad LocationRegressor false [w_group explicit_mean; h_group] h_cfg ex_rate heavy (1/1000) (1/1000) st /\
  (t_iter st <= c_thier h_cfg)%nat /\ p_factors (t_preds st) = [1/1000 + w_amp (1201/100); 1/1000 - w_amp (1201/100)].
Proof.
  destruct (hier_phase_back gm bppf erfinv bad LocationRegressor false [w_group explicit_mean; h_group] h_cfg ex_rate heavy (1/1000) (1/1000) _ eq_refl h_state) as (st & A & B & _).
  - cbn. lia.
  - reflexivity.
  - exists st. destruct B as (B1 & B2 & _). cbn [t_preds t_iter] in *. split; [exact A|]. rewrite <- B2, <- B1. split; [cbn; lia|reflexivity].
Qed.
End Run.
