(** A feature group without values ends a training earlier. *)
From Coq Require Import ZArith QArith Qround List Bool Reals Lra Lia FunctionalExtensionality.
From Verif.Model Require Import Num LexBins Train Predict Link Estimators Gbs WholeFit Regularize BinSmoothers.
From Verif.Spec Require Import LexSpec DataSpec TrainSpec HierSpec CellSpec InertSpec.
From Verif.Proofs Require Import TrainFacts LinkFacts TrainExamples WholeExamples DescentExamples CellExamples InertFacts InertWhole.
Import ListNotations.
Local Open Scope R_scope.

(** The rows of [noisy] with a second column in which everything is missing. *)
Definition e_row (s : sample) : sample :=
  {| x_bins := fun i => if Nat.eqb i 1 then [NaN] else x_bins s i; x_prior := x_prior s; x_y := x_y s; x_w := x_w s |}.
Definition with_empty : list sample := map e_row noisy.
Definition empty_group : group := {| g_dim := 1; g_hier := false; g_mnl := true; g_smoother := bin_values |}.
Definition e_cfg (m : R) : settings :=
  {| c_log := false; c_aggregate := true; c_hier := false; c_thier := 0; c_maxiter := 2; c_minfactor := m; c_minloss := -1 |}.

Lemma empty_column : no_values 1 with_empty.
Proof.
  intros s Hs. unfold with_empty in Hs. apply in_map_iff in Hs as (r & <- & _). exists NaN. split; [left; reflexivity|]. left. reflexivity.
Qed.
Lemma rows_back : map (row_without 1) with_empty = noisy.
Proof.
  unfold with_empty, noisy, row_without, e_row, w_row, w_bins. cbn [map x_bins x_prior x_y x_w].
  assert (E : forall q, (fun j => if Nat.eqb (place 1 j) 1 then [NaN] else [Fin q]) = (fun _ : nat => [Fin q])).
  { intro q. extensionality j. destruct j as [|[|j]]; reflexivity. }
  rewrite !E. reflexivity.
Qed.

Section Run.
Variables (gm : R -> R) (bppf : R -> R -> R -> R) (erfinv : R -> R) (bad : R) (m : R).
Let k := GBSRegressor 0.
Let f := bind_group with_empty 0 plain_group.
Let e := bind_group with_empty 1 empty_group.
Let y := map x_y with_empty.
Let w := map x_w with_empty.
Let calc (H : list feature) := fun (i it : nat) (p : preds) => map (estimate_value bad) (group_estimates gm bppf erfinv k H y w i p).
Let smth hs (H : list feature) := fun (i it : nat) (p : preds) => group_smoother gm bppf erfinv bad k hs H y w i p.
Let calb (H : list feature) := kind_calibration k H w.
Let lss := fun p => kind_loss bad k y w (p_factors p).
Let p0 := {| p_factors := [0; 0; 0; 0; 0; 0]; p_exponents := zeros 6 |}.
Let p1 := {| p_factors := [2/3; 2/3; -2/5; -2/5; -2/5; -2/5]; p_exponents := zeros 6 |}.
Let s1 := {| s_fitted := true; s_factors := [2/3; -2/5; 0]; s_old := zeros 3; s_agg := Some [2/3; -2/5; 0]; s_zero := false |}.
Let s2 := {| s_fitted := true; s_factors := [0]; s_old := zeros 1; s_agg := Some [0]; s_zero := false |}.

Lemma e_lex : f_lex f = [0; 0; 1; 1; 1; 1]%nat /\ f_finite f = 2%nat /\ f_lex e = repeat 0%nat 6 /\ f_finite e = 0%nat.
Proof. repeat split; reflexivity. Qed.

Lemma e_factors hs H : nth_error hs 0 = Some plain_group -> nth_error H 0 = Some f ->
  snd (new_factors (calc H) (smth hs H) (calb H) ex_rate 0 f (init_fstate f) 0 p0) = [2/3; -2/5; 0].
Proof.
  intros Eg Ef. destruct e_lex as (L & F & _). assert (Mn : f_mnl f = false) by reflexivity.
  unfold calc, smth, calb, y, w. change (map x_y with_empty) with (map x_y noisy). change (map x_w with_empty) with (map x_w noisy).
  unfold new_factors. cbv zeta. cbn [snd]. unfold group_smoother, group_estimates. rewrite Eg, Ef. clear calc smth calb. clearbody f. rewrite L, F.
  unfold k, p0. cbn [estimates p_factors]. rewrite noisy_estimates. rewrite Mn. cbn [map estimate_value estimate_uncertainty nth seq firstn s_zero init_fstate].
  cbn [plain_group w_group g_smoother]. unfold bin_values. cbn [nth_error].
  unfold ex_rate, kind_calibration. cbn [app]. f_equal; [lra|f_equal; [lra|f_equal; lra]].
Qed.
Lemma e_loss a b c d g h : kind_loss bad k y w [a; b; c; d; g; h] =
    ((a - 101) ^ 2 + (b + 99) ^ 2 + (c - 199/2) ^ 2 + (d + 201/2) ^ 2 + (g - 199/2) ^ 2 + (h + 201/2) ^ 2) / 6.
Proof.
  unfold k, y, w. change (map x_y with_empty) with (map x_y noisy). change (map x_w with_empty) with (map x_w noisy).
  unfold kind_loss. cbv zeta. unfold gbs_loss. cbv zeta. cbn [kind_link map unlink_func noisy w_row x_y x_w].
  repeat (match goal with |- context [Reqb ?x 0] => rewrite (proj2 (Reqb_false_iff x 0)) by lra end). cbn [map2 sumR].
  rewrite (proj2 (Reqb_false_iff _ 0)) by lra. field.
Qed.
Lemma e_calm : is_diverged (lss p0) (lss p1) = false.
Proof. unfold is_diverged, lss, p0, p1. cbn [p_factors]. rewrite !e_loss. apply Rltb_false. lra. Qed.

Lemma first_group hs H : nth_error hs 0 = Some plain_group -> nth_error H 0 = Some f ->
  feature_iteration (e_cfg m) (calc H) (smth hs H) (calb H) ex_rate lss 0 f (init_fstate f) 0 p0 false 0 (lss p0) = Ok (s1, p1).
Proof.
  intros Eg Ef. destruct e_lex as (L & F & _). unfold feature_iteration. cbn [c_aggregate e_cfg].
  pose proof (e_factors hs H Eg Ef) as Hf. destruct (new_factors (calc H) (smth hs H) (calb H) ex_rate 0 f (init_fstate f) 0 p0) as [un ff]. cbn [snd] in Hf. subst ff.
  unfold visit_factors, limit_factors. cbn [c_log c_aggregate e_cfg andb s_fitted init_fstate s_zero s_factors]. rewrite L, F.
  change (f_ext f) with false. unfold add_preds, s1, p1, p0. cbn [p_factors p_exponents]. do 3 f_equal. cbn. repeat (f_equal; try lra).
Qed.
Lemma second_group : feature_iteration (e_cfg m) (calc [f; e]) (smth [plain_group; empty_group] [f; e]) (calb [f; e]) ex_rate lss 1 e (init_fstate e) 0 p1 false 0 (lss p0) = Ok (s2, p1).
Proof.
  destruct e_lex as (_ & _ & L & F). unfold feature_iteration. cbn [c_aggregate e_cfg]. unfold new_factors. rewrite F. change (f_mnl e) with true.
  cbn [seq map app]. unfold calb, k. cbn [kind_calibration]. unfold visit_factors, limit_factors.
  cbn [c_log c_aggregate e_cfg andb s_fitted init_fstate s_zero s_factors]. rewrite L, F. change (f_ext e) with false.
  rewrite add_nothing by reflexivity. reflexivity.
Qed.

Let after (sl : list fstate) : state :=
  {| t_preds := p1; t_feats := sl; t_iter := 1; t_diverging := 0; t_isdiv := false; t_loss := lss p1;
     t_losschange := loss_change (lss p0) (lss p1); t_delta := factors_deviation sl |}.
Lemma pass_alone : iteration (e_cfg m) [f] (calc [f]) (smth [plain_group] [f]) (calb [f]) ex_rate lss (lss p0) (init_state [f] lss p0) = Ok (after [s1]).
Proof.
  unfold iteration, init_state. cbn [map t_feats t_iter t_preds t_isdiv t_diverging t_loss features_pass].
  change (skipped (e_cfg m) f 0) with false. cbn iota. rewrite first_group by reflexivity. rewrite e_calm. reflexivity.
Qed.
Lemma pass_both : iteration (e_cfg m) [f; e] (calc [f; e]) (smth [plain_group; empty_group] [f; e]) (calb [f; e]) ex_rate lss (lss p0) (init_state [f; e] lss p0) = Ok (after [s1; s2]).
Proof.
  unfold iteration, init_state. cbn [map t_feats t_iter t_preds t_isdiv t_diverging t_loss features_pass].
  change (skipped (e_cfg m) f 0) with false. cbn iota. rewrite first_group by reflexivity.
  change (skipped (e_cfg m) e 0) with false. cbn iota. rewrite second_group. rewrite e_calm. reflexivity.
Qed.
Lemma delta_alone : factors_deviation [s1] = 16/45.
Proof.
  unfold factors_deviation, s1, mean. cbn [map s_factors s_old]. cbn [zeros repeat vsub map2 map sumR length INR].
  rewrite (Rabs_right (2/3 - 0)), (Rabs_left (-2/5 - 0)), (Rabs_right (0 - 0)) by lra. lra.
Qed.
Lemma delta_both : factors_deviation [s1; s2] = 8/45.
Proof.
  unfold factors_deviation, s1, s2, mean. cbn [map s_factors s_old]. cbn [zeros repeat vsub map2 map sumR length INR].
  rewrite !(Rabs_right (2/3 - 0)), (Rabs_left (-2/5 - 0)), !(Rabs_right (0 - 0)) by lra. lra.
Qed.

Lemma run_start fl : continues (e_cfg m) (init_state fl lss p0) = negb (Rleb 100 m).
Proof.
  unfold continues, check_stop, stop_iterations, stop_factor_change, stop_loss_change, veto_hierarchical, init_state.
  cbn [t_delta t_losschange t_iter t_isdiv c_maxiter c_minfactor c_minloss c_thier c_hier e_cfg Nat.leb].
  rewrite (proj2 (Rleb_false (Rabs _) (-1))) by (pose proof (Rabs_pos (IZR (10 ^ 20))); lra). rewrite orb_false_l, orb_false_r, orb_false_r. cbn [andb negb]. rewrite andb_true_r. reflexivity.
Qed.
Lemma run_after sl : continues (e_cfg m) (after sl) = negb (Rleb (factors_deviation sl) m).
Proof.
  unfold continues, check_stop, stop_iterations, stop_factor_change, stop_loss_change, veto_hierarchical, after.
  cbn [t_delta t_losschange t_iter t_isdiv c_maxiter c_minfactor c_minloss c_thier c_hier e_cfg Nat.leb].
  rewrite (proj2 (Rleb_false (Rabs _) (-1))) by (pose proof (Rabs_pos (loss_change (lss p0) (lss p1))); lra). rewrite orb_false_l, orb_false_r, orb_false_r. cbn [andb negb]. rewrite andb_true_r. reflexivity.
Qed.

Lemma e_scale : kind_scale k y w = Some 0.
Proof.
  unfold k, y, w. cbn [kind_scale]. unfold gbs_global_scale. cbn [with_empty e_row noisy map w_row x_y x_w sumR map2].
  rewrite (proj2 (Reqb_false_iff _ _)) by lra. f_equal. field.
Qed.

(** With the empty group the training ends after one pass. *)
Lemma ends_early : 8/45 <= m < 100 -> exists t,
  whole_fit gm bppf erfinv bad k false [plain_group; empty_group] (e_cfg m) ex_rate 2 with_empty = Trained t /\
  o_iterations t = 1%nat /\ nth_error (whole_predict k false t with_empty) 0 = Some (2/3).
Proof.
  intro Hm. unfold whole_fit. fold y w. rewrite e_scale. cbv zeta. unfold k at 1. cbn [kind_offset]. unfold train. cbv zeta. fold y w.
  change (bind_groups with_empty 0 [plain_group; empty_group]) with [f; e].
  change (prior_predictions 0 0 (linked_column k false with_empty) (length with_empty)) with [0; 0; 0; 0; 0; 0]. change (zeros (length with_empty)) with (zeros 6). fold p0.
  fold (calc [f; e]). fold (smth [plain_group; empty_group] [f; e]). fold (calb [f; e]). fold lss.
  assert (E : fit_main (e_cfg m) [f; e] (calc [f; e]) (smth [plain_group; empty_group] [f; e]) (calb [f; e]) ex_rate lss 2 p0 = Some (Ok (after [s1; s2]))).
  { unfold fit_main. erewrite loop_step; [|rewrite run_start, (proj2 (Rleb_false _ _)) by lra; reflexivity|exact pass_both].
    rewrite loop_end by (rewrite run_after, delta_both, (proj2 (Rleb_iff _ _)) by lra; reflexivity).
    unfold finish. cbn [after t_feats forallb s1 s2 s_agg andb t_loss t_diverging]. rewrite andb_false_r. reflexivity. }
  match goal with |- context [fit_main ?c ?F ?a ?b ?d ?r ?l 2 ?p] => replace (fit_main c F a b d r l 2%nat p) with (Some (Ok (after [s1; s2]))) by (symmetry; exact E) end.
  eexists. split; [reflexivity|]. split; [reflexivity|].
  unfold whole_predict, cb_predict. cbn [o_scale o_offset o_groups after t_feats map2].
  change (prior_predictions 0 0 (linked_column k false with_empty) (length (map x_bins with_empty))) with [0; 0; 0; 0; 0; 0].
  unfold predict_extended. cbn [predict_from]. rewrite (silent_factors (store e s2)) by reflexivity. rewrite !map_length.
  change (m_ext (store e s2)) with false. change (m_ext (store f s1)) with false. unfold add_preds. cbn [p_factors p_exponents].
  rewrite vadd_zeros.
  - unfold predict_factors, with_empty, noisy. cbn [map]. unfold store. cbn. f_equal. match goal with |- 0 + ?x = _ => replace x with (1 * (2/3)) by reflexivity end. lra.
  - reflexivity.
Qed.

(** Without it, there are two passes. *)
Lemma ends_later : m < 16/45 -> exists t,
  whole_fit gm bppf erfinv bad k false [plain_group] (e_cfg m) ex_rate 2 noisy = Trained t /\
  o_iterations t = 2%nat /\ nth_error (whole_predict k false t noisy) 0 = Some (8/9).
Proof.
  intro Hm. destruct (two_passes gm bppf erfinv bad) as (t & T & I & P). exists t. split; [|split; assumption]. rewrite <- T. clear T I P t.
  unfold whole_fit. change (map x_y noisy) with y. change (map x_w noisy) with w. fold k. rewrite e_scale. cbv zeta. unfold k at 1 4. cbn [kind_offset]. unfold train. cbv zeta.
  change (map x_y noisy) with y. change (map x_w noisy) with w.
  change (bind_groups noisy 0 [plain_group]) with [f].
  change (prior_predictions 0 0 (linked_column k false noisy) (length noisy)) with [0; 0; 0; 0; 0; 0]. change (zeros (length noisy)) with (zeros 6). fold p0.
  fold (calc [f]). fold (smth [plain_group] [f]). fold (calb [f]). fold lss.
  assert (E : fit_main (e_cfg m) [f] (calc [f]) (smth [plain_group] [f]) (calb [f]) ex_rate lss 2 p0 = fit_main (n_cfg 2) [f] (calc [f]) (smth [plain_group] [f]) (calb [f]) ex_rate lss 2 p0).
  { unfold fit_main. pose proof pass_alone as PA. assert (PB : iteration (n_cfg 2) [f] (calc [f]) (smth [plain_group] [f]) (calb [f]) ex_rate lss (lss p0) (init_state [f] lss p0) = Ok (after [s1])) by exact PA.
    erewrite loop_step; [|rewrite run_start, (proj2 (Rleb_false _ _)) by lra; reflexivity|exact PA].
    erewrite (loop_step (n_cfg 2)); [| |exact PB].
    2:{ change (n_cfg 2) with (e_cfg (-1)). unfold continues, check_stop, stop_iterations, stop_factor_change, stop_loss_change, veto_hierarchical, init_state.
        cbn [t_delta t_losschange t_iter t_isdiv c_maxiter c_minfactor c_minloss c_thier c_hier e_cfg Nat.leb].
        rewrite (proj2 (Rleb_false (Rabs _) (-1))) by (pose proof (Rabs_pos (IZR (10 ^ 20))); lra). rewrite (proj2 (Rleb_false _ _)) by lra. reflexivity. }
    cbn [loop]. rewrite run_after, delta_alone, (proj2 (Rleb_false _ _)) by lra. cbn [negb].
    assert (C : continues (n_cfg 2) (after [s1]) = true).
    { unfold continues, check_stop, stop_iterations, stop_factor_change, stop_loss_change, veto_hierarchical, after.
      cbn [t_delta t_losschange t_iter t_isdiv c_maxiter c_minfactor c_minloss c_thier c_hier n_cfg Nat.leb]. rewrite delta_alone.
      rewrite (proj2 (Rleb_false (Rabs _) (-1))) by (pose proof (Rabs_pos (loss_change (lss p0) (lss p1))); lra). rewrite (proj2 (Rleb_false _ _)) by lra. reflexivity. }
    rewrite C. change (iteration (n_cfg 2)) with (iteration (e_cfg m)).
    destruct (iteration (e_cfg m) [f] (calc [f]) (smth [plain_group] [f]) (calb [f]) ex_rate lss (lss p0) (after [s1])) as [st|er] eqn:Ei; [|reflexivity].
    assert (It : t_iter st = 2%nat) by (rewrite (iter_count _ _ p0 _ _ _ _ _ _ _ Ei); reflexivity).
    assert (C2 : forall c, c_maxiter c = 2%nat -> c_hier c = false -> continues c st = t_isdiv st).
    { intros c A B. unfold continues, check_stop, stop_iterations, veto_hierarchical. rewrite A, B, It, andb_false_r. reflexivity. }
    rewrite !C2 by reflexivity. reflexivity. }
  match goal with |- context [fit_main (e_cfg m) ?F ?a ?b ?d ?r ?l 2 ?p] =>
    replace (fit_main (e_cfg m) F a b d r l 2%nat p) with (fit_main (n_cfg 2) F a b d r l 2%nat p) by (symmetry; exact E) end.
  reflexivity.
Qed.
End Run.

Theorem empty_group_matters : forall gm bppf erfinv bad, exists cfg t t',
  c_log cfg = false /\ c_hier cfg = false /\ 0 < c_minfactor cfg /\
  whole_fit gm bppf erfinv bad (GBSRegressor 0) false [plain_group; empty_group] cfg ex_rate 2 with_empty = Trained t /\
  whole_fit gm bppf erfinv bad (GBSRegressor 0) false [plain_group] cfg ex_rate 2 (map (row_without 1) with_empty) = Trained t' /\
  o_iterations t = 1%nat /\ o_iterations t' = 2%nat /\
  nth_error (whole_predict (GBSRegressor 0) false t with_empty) 0 = Some (2/3) /\
  nth_error (whole_predict (GBSRegressor 0) false t' (map (row_without 1) with_empty)) 0 = Some (8/9).
Proof.
  intros gm bppf erfinv bad. destruct (ends_early gm bppf erfinv bad (1/4) ltac:(lra)) as (t & A & B & C).
  destruct (ends_later gm bppf erfinv bad (1/4) ltac:(lra)) as (t' & A' & B' & C'). rewrite rows_back.
  exists (e_cfg (1/4)), t, t'. split; [reflexivity|]. split; [reflexivity|]. split; [cbn; lra|]. tauto.
Qed.
Theorem empty_case : forall gm bppf erfinv bad,
  nth_error [plain_group; empty_group] 1 = Some empty_group /\ g_mnl empty_group = true /\ (1 <= g_dim empty_group)%nat /\
  no_values 1 with_empty /\ without 1 [plain_group; empty_group] <> [] /\ c_log (e_cfg (-1)) = false /\ c_hier (e_cfg (-1)) = false /\ c_minfactor (e_cfg (-1)) < 0 /\
  exists t', whole_fit gm bppf erfinv bad (GBSRegressor 0) false (without 1 [plain_group; empty_group]) (e_cfg (-1)) ex_rate 2 (map (row_without 1) with_empty) = Trained t' /\
    nth_error (whole_predict (GBSRegressor 0) false t' (map (row_without 1) with_empty)) 0 = Some (8/9).
Proof.
  intros gm bppf erfinv bad. destruct (ends_later gm bppf erfinv bad (-1) ltac:(lra)) as (t' & A' & B' & C'). rewrite rows_back.
  split; [reflexivity|]. split; [reflexivity|]. split; [cbn; lia|]. split; [exact empty_column|]. split; [discriminate|]. split; [reflexivity|].
  split; [reflexivity|]. split; [cbn; lra|]. exists t'. split; assumption.
Qed.
