(** A constant column ends a training of the location regressor earlier. *)
From Coq Require Import ZArith QArith Qround List Bool Arith Reals Lra Lia.
From Verif.Model Require Import Num LexBins Train Predict Link Estimators Gbs WholeFit Regularize BinSmoothers.
From Verif.Spec Require Import LexSpec DataSpec PredictSpec TrainSpec HierSpec InsampleSpec InertSpec ConstantColumnSpec.
From Verif.Proofs Require Import TrainFacts LinkFacts LexFacts TrainExamples WholeExamples DescentExamples CellExamples InsampleFacts LocationCellExamples InertFacts InertWhole InertExamples ConstantColumn ConstantColumnExamples.
Import ListNotations.
Local Open Scope R_scope.

Definition stop_cfg : settings :=
  {| c_log := false; c_aggregate := true; c_hier := false; c_thier := 0; c_maxiter := 2; c_minfactor := 2; c_minloss := -1 |}.

Section Run.
Variables (gm : R -> R) (bppf : R -> R -> R -> R) (erfinv : R -> R) (bad : R).
Let k := LocationRegressor.
Let f := bind_group lc_constant 0 plain_group.
Let e := bind_group lc_constant 1 plain_group.
Let y := map x_y lc_constant.
Let w := map x_w lc_constant.
Let calc (H : list feature) := fun (i it : nat) (p : preds) => map (estimate_value bad) (group_estimates gm bppf erfinv k H y w i p).
Let smth hs (H : list feature) := fun (i it : nat) (p : preds) => group_smoother gm bppf erfinv bad k hs H y w i p.
Let calb (H : list feature) := kind_calibration k H w.
Let lss := fun p => kind_loss bad k y w (p_factors p).
Let c := 5501 / 1000.
Let a := (1 - c) * (2400 / 2491).
Let b := (10 - c) * (2400 / 2483).
Let m := (a + b) / 2.
Let fs := [a - m; b - m; - m].
Let p0 := {| p_factors := [c; c; c]; p_exponents := zeros 3 |}.
Let p1 := {| p_factors := [c + (a - m); c + (a - m); c + (b - m)]; p_exponents := zeros 3 |}.
Let s1 := {| s_fitted := true; s_factors := fs; s_old := zeros 3; s_agg := Some fs; s_zero := false |}.
Let z := 8 / 8415.
Let s2 := {| s_fitted := true; s_factors := [0; z]; s_old := zeros 2; s_agg := Some [0; z]; s_zero := false |}.

Lemma first_factors_in hs H : nth_error hs 0 = Some plain_group -> nth_error H 0 = Some f ->
  snd (new_factors (calc H) (smth hs H) (calb H) ex_rate 0 f (init_fstate f) 0 p0) = fs.
Proof.
  intros Eg Ef. destruct k_lex as (L & F & _). fold f in L, F. assert (Mn : f_mnl f = false) by reflexivity. destruct k_estimates as (u0 & u1 & u2 & K).
  fold y w in K. fold c in K. fold a b in K.
  unfold calc, smth, calb, new_factors. cbv zeta. cbn [snd]. unfold group_smoother, group_estimates, kind_calibration, k.
  unfold location_calibration. rewrite Eg, Ef. clear calc smth calb lss. clearbody f. rewrite L, F.
  unfold p0. cbn [estimates p_factors]. rewrite K, Mn. cbn [map estimate_value estimate_uncertainty nth seq firstn s_zero init_fstate].
  cbn [plain_group w_group g_smoother]. unfold bin_values. cbn [nth_error app].
  unfold ex_rate, calibrate, centred, bincounts, w. cbn [seq map lc_constant k_row lc_data w_row x_w bin_total Nat.eqb map2 sumR].
  unfold fs, m. f_equal; [|f_equal; [|f_equal]]; field.
Qed.
Lemma first_group_in hs H : nth_error hs 0 = Some plain_group -> nth_error H 0 = Some f ->
  feature_iteration stop_cfg (calc H) (smth hs H) (calb H) ex_rate lss 0 f (init_fstate f) 0 p0 false 0 (lss p0) = Ok (s1, p1).
Proof.
  intros Eg Ef. destruct k_lex as (L & F & _). fold f in L, F. unfold feature_iteration. cbn [c_aggregate stop_cfg].
  pose proof (first_factors_in hs H Eg Ef) as Hf. destruct (new_factors (calc H) (smth hs H) (calb H) ex_rate 0 f (init_fstate f) 0 p0) as [un ff]. cbn [snd] in Hf. subst ff.
  unfold visit_factors, limit_factors. cbn [c_log c_aggregate stop_cfg andb s_fitted init_fstate s_zero s_factors]. rewrite L, F.
  change (f_ext f) with false. unfold add_preds, s1, p1, p0. cbn [p_factors p_exponents]. reflexivity.
Qed.

Lemma e_variances : precalc_variance_y [0; 0; 0]%nat 2 y w = [Some (83/4); Some (83/4)].
Proof.
  unfold precalc_variance_y. unfold y, w. rewrite k_variance. unfold squared_residuals.
  cbn [seq map lc_constant k_row lc_data w_row x_y x_w map2 bin_total Nat.eqb in_bin existsb orb andb].
  rewrite !(proj2 (Reqb_false_iff _ _)) by lra. cbv zeta. f_equal; [|f_equal]; f_equal; field.
Qed.
Lemma e_estimates : exists u v, location_parameters [0; 0; 0]%nat 2 y w (p_factors p1) = [Some (- z, u); Some (0, v)].
Proof.
  unfold location_parameters. rewrite e_variances. cbv zeta. unfold calc_factors_generic, y, w, p1. cbn [p_factors].
  cbn [seq map lc_constant k_row lc_data w_row x_y x_w map2 bin_total Nat.eqb nth].
  rewrite !(proj2 (Reqb_false_iff _ _)) by lra. do 2 eexists.
  f_equal; [|f_equal]; apply pair_some; try reflexivity; unfold z, m, a, b, c; field.
Qed.
Notation both := [plain_group; plain_group].
Lemma second_factors_in : snd (new_factors (calc [f; e]) (smth both [f; e]) (calb [f; e]) ex_rate 1 e (init_fstate e) 0 p1) = [0; z].
Proof.
  destruct k_lex as (_ & _ & L & F). fold e in L, F. assert (Mn : f_mnl e = false) by reflexivity. destruct e_estimates as (u0 & u1 & K).
  unfold calc, smth, calb, new_factors. cbv zeta. cbn [snd]. unfold group_smoother, group_estimates, kind_calibration, k.
  unfold location_calibration. cbn [nth_error]. clear calc smth calb lss. clearbody e. rewrite L, F.
  cbn [estimates]. rewrite K, Mn. cbn [map estimate_value estimate_uncertainty nth seq firstn s_zero init_fstate].
  cbn [plain_group w_group g_smoother]. unfold bin_values. cbn [nth_error app].
  unfold ex_rate, calibrate, centred, bincounts, w. cbn [seq map lc_constant k_row lc_data w_row x_w bin_total Nat.eqb map2 sumR].
  f_equal; [|f_equal]; field.
Qed.
Lemma second_group_in : feature_iteration stop_cfg (calc [f; e]) (smth both [f; e]) (calb [f; e]) ex_rate lss 1 e (init_fstate e) 0 p1 false 0 (lss p0) = Ok (s2, p1).
Proof.
  destruct k_lex as (_ & _ & L & F). fold e in L, F. unfold feature_iteration. cbn [c_aggregate stop_cfg].
  pose proof second_factors_in as Hf. destruct (new_factors (calc [f; e]) (smth both [f; e]) (calb [f; e]) ex_rate 1 e (init_fstate e) 0 p1) as [un ff]. cbn [snd] in Hf. subst ff.
  unfold visit_factors, limit_factors. cbn [c_log c_aggregate stop_cfg andb s_fitted init_fstate s_zero s_factors]. rewrite L, F.
  change (f_ext e) with false. unfold add_preds, p1, s2. cbn [p_factors p_exponents gather map nth vadd map2]. rewrite !Rplus_0_r. reflexivity.
Qed.

Let after (sl : list fstate) : state :=
  {| t_preds := p1; t_feats := sl; t_iter := 1; t_diverging := 0; t_isdiv := false; t_loss := lss p1;
     t_losschange := loss_change (lss p0) (lss p1); t_delta := factors_deviation sl |}.
Lemma calm : is_diverged (lss p0) (lss p1) = false.
Proof. exact (k_calm bad). Qed.
Lemma alone_pass : iteration stop_cfg [f] (calc [f]) (smth [plain_group] [f]) (calb [f]) ex_rate lss (lss p0) (init_state [f] lss p0) = Ok (after [s1]).
Proof.
  unfold iteration, init_state. cbn [map t_feats t_iter t_preds t_isdiv t_diverging t_loss features_pass].
  change (skipped stop_cfg f 0) with false. cbn iota. rewrite first_group_in by reflexivity. rewrite calm. reflexivity.
Qed.
Lemma both_pass : iteration stop_cfg [f; e] (calc [f; e]) (smth both [f; e]) (calb [f; e]) ex_rate lss (lss p0) (init_state [f; e] lss p0) = Ok (after [s1; s2]).
Proof.
  unfold iteration, init_state. cbn [map t_feats t_iter t_preds t_isdiv t_diverging t_loss features_pass].
  change (skipped stop_cfg f 0) with false. cbn iota. rewrite first_group_in by reflexivity.
  change (skipped stop_cfg e 0) with false. cbn iota. rewrite second_group_in. rewrite calm. reflexivity.
Qed.
Lemma alone_delta : 2 < factors_deviation [s1].
Proof.
  unfold factors_deviation, s1, fs, mean. cbn [map s_factors s_old zeros repeat vsub map2 sumR length INR].
  assert (A : a - m - 0 < - 4) by (unfold m, a, b, c; lra). assert (B : 4 < b - m - 0) by (unfold m, a, b, c; lra).
  rewrite (Rabs_left (a - m - 0)), (Rabs_right (b - m - 0)) by lra. pose proof (Rabs_pos (- m - 0)). lra.
Qed.
Lemma both_delta : factors_deviation [s1; s2] <= 2.
Proof.
  unfold factors_deviation, s1, s2, fs, mean. cbn [map s_factors s_old zeros repeat vsub map2 sumR length INR].
  assert (A : - 5 < a - m - 0 < 0) by (unfold m, a, b, c; lra). assert (B : 0 < b - m - 0 < 5) by (unfold m, a, b, c; lra).
  assert (M : 0 < m < 1) by (unfold m, a, b, c; lra).
  rewrite (Rabs_left (a - m - 0)), (Rabs_right (b - m - 0)), (Rabs_left (- m - 0)), (Rabs_right (0 - 0)), (Rabs_right (z - 0)) by (unfold z; lra). unfold z. lra.
Qed.
Lemma run_first fl : continues stop_cfg (init_state fl lss p0) = true.
Proof.
  unfold continues, check_stop, stop_iterations, stop_factor_change, stop_loss_change, veto_hierarchical, init_state.
  cbn [t_delta t_losschange t_iter t_isdiv c_maxiter c_minfactor c_minloss c_thier c_hier stop_cfg Nat.leb].
  rewrite (proj2 (Rleb_false (Rabs _) (-1))) by (pose proof (Rabs_pos (IZR (10 ^ 20))); lra). rewrite (proj2 (Rleb_false _ _)) by lra. reflexivity.
Qed.
Lemma run_next sl : continues stop_cfg (after sl) = negb (Rleb (factors_deviation sl) 2).
Proof.
  unfold continues, check_stop, stop_iterations, stop_factor_change, stop_loss_change, veto_hierarchical, after.
  cbn [t_delta t_losschange t_iter t_isdiv c_maxiter c_minfactor c_minloss c_thier c_hier stop_cfg Nat.leb].
  rewrite (proj2 (Rleb_false (Rabs _) (-1))) by (pose proof (Rabs_pos (loss_change (lss p0) (lss p1))); lra). rewrite orb_false_l, orb_false_r, orb_false_r. cbn [andb negb]. rewrite andb_true_r. reflexivity.
Qed.

Theorem constant_stops : exists t,
  whole_fit gm bppf erfinv bad LocationRegressor false both stop_cfg ex_rate 1 lc_constant = Trained t /\ o_iterations t = 1%nat /\
  whole_fit gm bppf erfinv bad LocationRegressor false [plain_group] stop_cfg ex_rate 1 (map (row_without 1) lc_constant) = MoreIterations.
Proof.
  assert (E1 : fit_main stop_cfg [f; e] (calc [f; e]) (smth both [f; e]) (calb [f; e]) ex_rate lss 1 p0 = Some (Ok (after [s1; s2]))).
  { unfold fit_main. erewrite loop_step; [|apply run_first|exact both_pass].
    rewrite loop_end by (rewrite run_next, (proj2 (Rleb_iff _ _)) by exact both_delta; reflexivity).
    unfold finish. cbn [after t_feats forallb s1 s2 s_agg andb t_loss t_diverging]. rewrite andb_false_r. reflexivity. }
  assert (E2 : fit_main stop_cfg [f] (calc [f]) (smth [plain_group] [f]) (calb [f]) ex_rate lss 1 p0 = None).
  { unfold fit_main. erewrite loop_step; [|apply run_first|exact alone_pass].
    cbn [loop]. rewrite run_next, (proj2 (Rleb_false _ _)) by exact alone_delta. reflexivity. }
  assert (Y : map x_y (map (row_without 1) lc_constant) = y) by reflexivity. assert (W : map x_w (map (row_without 1) lc_constant) = w) by reflexivity.
  assert (SC : kind_scale k y w = Some c) by exact k_scale.
  eexists. split; [|split].
  - unfold whole_fit. fold y w. change LocationRegressor with k. rewrite SC. cbv zeta. unfold train. cbv zeta. fold y w.
    change (bind_groups lc_constant 0 both) with [f; e].
    match goal with |- context [fit_main ?c0 ?F ?a0 ?b0 ?d ?r ?l 1 ?p] => replace (fit_main c0 F a0 b0 d r l 1%nat p) with (Some (Ok (after [s1; s2]))) by (symmetry; exact E1) end. reflexivity.
  - reflexivity.
  - unfold whole_fit. rewrite Y, W. change LocationRegressor with k. rewrite SC. cbv zeta. unfold train. cbv zeta. rewrite Y, W.
    change (bind_groups (map (row_without 1) lc_constant) 0 [plain_group]) with [f].
    match goal with |- context [fit_main ?c0 ?F ?a0 ?b0 ?d ?r ?l 1 ?p] => replace (fit_main c0 F a0 b0 d r l 1%nat p) with (@None (outcome state)) by (symmetry; exact E2) end. reflexivity.
Qed.
End Run.
