(** Whole trainings with one iteration. *)
From Coq Require Import ZArith QArith Qround List Bool Reals Lra Lia.
From Verif.Model Require Import Num LexBins Train Predict Link Estimators Gbs WholeFit Regularize BinSmoothers.
From Verif.Spec Require Import DataSpec.
From Verif.Proofs Require Import TrainFacts LinkFacts TrainExamples IsotonicRuns OrderFacts.
Import ListNotations.
Local Open Scope R_scope.

Definition w_cfg : settings := ex_cfg true false false 0 1.

Lemma start_continues fl loss p : continues w_cfg (init_state fl loss p) = true.
Proof.
  unfold continues, check_stop, stop_iterations, stop_factor_change, stop_loss_change, init_state.
  cbn [t_delta t_losschange t_iter c_maxiter c_minfactor c_minloss w_cfg ex_cfg Nat.leb]. rewrite (proj2 (Rleb_false _ _)) by lra.
  rewrite (proj2 (Rleb_false _ _)); [reflexivity|]. pose proof (Rabs_pos (IZR (10 ^ 20))). lra.
Qed.

(** One group, one iteration, no divergence. *)
Lemma one_pass gm bppf erfinv bad k prior g rate D scale offset fs p0 p1 :
  kind_scale k (map x_y D) (map x_w D) = Some scale ->
  kind_offset k scale (map x_prior D) (map x_w D) = offset ->
  let f := bind_group D 0 g in
  p0 = {| p_factors := prior_predictions scale offset (linked_column k prior D) (length D); p_exponents := zeros (length D) |} ->
  snd (new_factors (fun i _ p => map (estimate_value bad) (group_estimates gm bppf erfinv k [f] (map x_y D) (map x_w D) i p))
    (fun i _ p => group_smoother gm bppf erfinv bad k [g] [f] (map x_y D) (map x_w D) i p)
    (kind_calibration k [f] (map x_w D)) rate 0 f (init_fstate f) 0 p0) = fs ->
  vadd (p_factors p0) (gather fs (f_lex f)) = p1 ->
  kind_loss bad k (map x_y D) (map x_w D) p1 <= kind_loss bad k (map x_y D) (map x_w D) (p_factors p0) * 2 ->
  whole_fit gm bppf erfinv bad k prior [g] w_cfg rate 1 D = Trained
    {| o_scale := scale; o_offset := offset;
       o_groups := [store f {| s_fitted := true; s_factors := fs; s_old := zeros (S (f_finite f)); s_agg := Some fs; s_zero := false |}];
       o_iterations := 1; o_loss := kind_loss bad k (map x_y D) (map x_w D) p1 |}.
Proof.
  intros Hs Ho f Hp Hf Hp1 Hl. unfold whole_fit. rewrite Hs. cbv zeta. rewrite Ho. unfold train. cbv zeta.
  cbn [bind_groups]. fold f. rewrite <- Hp.
  set (calc := fun (i it : nat) (p : preds) => map (estimate_value bad) (group_estimates gm bppf erfinv k [f] (map x_y D) (map x_w D) i p)) in *.
  set (smth := fun (i it : nat) (p : preds) => group_smoother gm bppf erfinv bad k [g] [f] (map x_y D) (map x_w D) i p) in *.
  set (calb := kind_calibration k [f] (map x_w D)) in *.
  set (lss := fun p => kind_loss bad k (map x_y D) (map x_w D) (p_factors p)) in *.
  change (kind_loss bad k (map x_y D) (map x_w D) (p_factors p0)) with (lss p0) in Hl.
  set (p1' := {| p_factors := p1; p_exponents := p_exponents p0 |}).
  assert (E : iteration w_cfg [f] calc smth calb rate lss (lss p0) (init_state [f] lss p0) =
    Ok {| t_preds := p1'; t_feats := [{| s_fitted := true; s_factors := fs; s_old := zeros (S (f_finite f)); s_agg := Some fs; s_zero := false |}];
          t_iter := 1; t_diverging := 0; t_isdiv := false; t_loss := lss p1'; t_losschange := loss_change (lss p0) (lss p1');
          t_delta := factors_deviation [{| s_fitted := true; s_factors := fs; s_old := zeros (S (f_finite f)); s_agg := Some fs; s_zero := false |}] |}).
  { unfold iteration, init_state. cbn [map t_feats t_iter t_preds t_isdiv t_diverging t_loss features_pass].
    change (skipped w_cfg f 0) with false. cbn iota. unfold feature_iteration. cbn [c_aggregate w_cfg ex_cfg].
    destruct (new_factors calc smth calb rate 0 f (init_fstate f) 0 p0) as [un ff]. cbn [snd] in Hf. subst ff.
    unfold visit_factors, limit_factors. cbn [c_log c_aggregate w_cfg ex_cfg andb s_fitted init_fstate s_zero s_factors].
    change (add_preds (f_ext f) p0 (gather fs (f_lex f))) with {| p_factors := vadd (p_factors p0) (gather fs (f_lex f)); p_exponents := p_exponents p0 |}.
    rewrite Hp1. fold p1'. unfold is_diverged. rewrite (proj2 (Rltb_false _ _)) by (unfold lss at 2; cbn [p_factors p1']; exact Hl).
    cbn [andb]. reflexivity. }
  unfold fit_main. erewrite loop_step; [|apply start_continues|exact E].
  rewrite loop_end by reflexivity.
  unfold finish. cbn [t_feats forallb s_agg andb t_loss t_diverging]. rewrite andb_false_r. reflexivity.
Qed.

(** ** Data: two categories. *)
Definition w_bins (q : Q) (i : nat) : list fnum := [Fin q].
Definition w_row (q : Q) (y w : R) : sample := {| x_bins := w_bins q; x_prior := None; x_y := y; x_w := w |}.
Definition w_group (s : bin_smoother) : group := {| g_dim := 1; g_hier := false; g_mnl := false; g_smoother := s |}.

(** Each row once with weight 2, or twice with weight 1. *)
Definition heavy : list sample := [w_row 0 1 2; w_row 1 (-1) 2].
Definition twice : list sample := [w_row 0 1 1; w_row 0 1 1; w_row 1 (-1) 1; w_row 1 (-1) 1].

Lemma heavy_lex : f_lex (bind_group heavy 0 (w_group explicit_mean)) = [0; 1]%nat /\
  f_finite (bind_group heavy 0 (w_group explicit_mean)) = 2%nat.
Proof. split; reflexivity. Qed.
Lemma twice_lex : f_lex (bind_group twice 0 (w_group explicit_mean)) = [0; 0; 1; 1]%nat /\
  f_finite (bind_group twice 0 (w_group explicit_mean)) = 2%nat.
Proof. split; reflexivity. Qed.

Lemma heavy_prior : variance_prior [1; -1] [2; 2] = Some 1.
Proof. lcomp. repeat (real_step; lcomp). f_equal. field. Qed.
Lemma heavy_variances : precalc_variance_y [0; 1]%nat 3 [1; -1] [2; 2] = [Some (1/3); Some (1/3); Some 1].
Proof.
  unfold precalc_variance_y. rewrite heavy_prior. lcomp. repeat (real_step; lcomp). repeat (f_equal; try field).
Qed.
Lemma twice_prior : variance_prior [1; 1; -1; -1] [1; 1; 1; 1] = Some 1.
Proof. lcomp. repeat (real_step; lcomp). f_equal. field. Qed.
Lemma twice_variances : precalc_variance_y [0; 0; 1; 1]%nat 3 [1; 1; -1; -1] [1; 1; 1; 1] = [Some (1/3); Some (1/3); Some 1].
Proof.
  unfold precalc_variance_y. rewrite twice_prior. lcomp. repeat (real_step; lcomp). repeat (f_equal; try field).
Qed.

Definition w_u (a : R) : R := sqrt (a / (601 / 100) ^ 2).
Lemma heavy_estimates : location_parameters [0; 1]%nat 3 [1; -1] [2; 2] [1/1000; 1/1000] =
  [Some (5994/6010, w_u (1201/100)); Some (-6006/6010, w_u (1201/100)); Some (0, sqrt (1/100 / (1/100) ^ 2))].
Proof.
  unfold location_parameters. rewrite heavy_variances. unfold w_u. lcomp. repeat (real_step; lcomp).
  repeat (apply f_equal2; [apply some_pair; [field|apply sqrt_same; field]|]). reflexivity.
Qed.
Lemma twice_estimates : location_parameters [0; 0; 1; 1]%nat 3 [1; 1; -1; -1] [1; 1; 1; 1] [1/1000; 1/1000; 1/1000; 1/1000] =
  [Some (5994/6010, w_u (601/100)); Some (-6006/6010, w_u (601/100)); Some (0, sqrt (1/100 / (1/100) ^ 2))].
Proof.
  unfold location_parameters. rewrite twice_variances. unfold w_u. lcomp. repeat (real_step; lcomp).
  repeat (apply f_equal2; [apply some_pair; [field|apply sqrt_same; field]|]). reflexivity.
Qed.

Lemma w_u_square a : 0 < a -> w_u a * w_u a = a / (601/100) ^ 2 /\ 0 < w_u a.
Proof.
  intro H. assert (P : 0 < a / (601/100) ^ 2) by (apply Rdiv_lt_0_compat; [auto|lra]).
  unfold w_u. split; [apply sqrt_sqrt; lra|apply sqrt_lt_R0; auto].
Qed.

(** The regularised values of the two bins. *)
Definition w_value (a v : R) : R :=
  ((601/100) ^ 2 / a * v + (6010/6000) ^ 2 * (-6/6010)) / ((601/100) ^ 2 / a + (6010/6000) ^ 2).
Lemma w_smoothed a : 0 < a ->
  regularize_to_error_weighted_mean [5994/6010; -6006/6010] [w_u a; w_u a] None =
    Some [Some (w_value a (5994/6010)); Some (w_value a (-6006/6010))].
Proof.
  intro H. destruct (w_u_square a H) as [Q P]. unfold regularize_to_error_weighted_mean. cbn [length Nat.eqb negb].
  assert (C : allclose [5994/6010; -6006/6010] (5994/6010) = false).
  { unfold allclose, isclose. cbn [forallb]. apply andb_false_intro2. apply andb_false_intro1. apply Rleb_false.
    rewrite (Rabs_left (-6006/6010 - 5994/6010)) by lra. rewrite (Rabs_pos_eq (5994/6010)) by lra. lra. }
  rewrite C. cbn [existsb map]. rewrite (proj2 (Reqb_false_iff _ _)) by lra. cbn [orb]. rewrite Q.
  cbv zeta. cbn [map2 sumR]. assert (N : a <> 0) by lra.
  set (W := 1 / (a / (601/100) ^ 2)). assert (EW : W = (601/100) ^ 2 / a) by (unfold W; field; auto).
  assert (PW : 0 < W) by (rewrite EW; apply Rdiv_lt_0_compat; lra).
  assert (M : (W * (5994/6010) + (W * (-6006/6010) + 0)) / (W + (W + 0)) = -6/6010) by (field; lra).
  rewrite M.
  assert (I : 1 / ((W * (5994/6010 - -6/6010) ^ 2 + (W * (-6006/6010 - -6/6010) ^ 2 + 0)) / (W + (W + 0))) = (6010/6000) ^ 2)
    by (field; lra).
  rewrite I. unfold w_value. rewrite <- EW. reflexivity.
Qed.
Lemma w_values_sum a : 0 < a -> w_value a (5994/6010) + w_value a (-6006/6010) = 2 * (-6/6010).
Proof. intro H. assert (P : 0 < (601/100) ^ 2 / a) by (apply Rdiv_lt_0_compat; lra). unfold w_value. field. lra. Qed.

(** The contributions learned. *)
Definition w_amp (a : R) : R := (6000/6010) * ((601/100) ^ 2 / a) / ((601/100) ^ 2 / a + (6010/6000) ^ 2).
Lemma w_amp_value a : 0 < a -> w_value a (5994/6010) - -6/6010 = w_amp a /\ w_value a (-6006/6010) - -6/6010 = - w_amp a.
Proof.
  intro H. assert (P : 0 < (601/100) ^ 2 / a) by (apply Rdiv_lt_0_compat; lra). unfold w_value, w_amp. split; field; lra.
Qed.
Lemma w_amp_bounds a : 0 < a -> 0 < w_amp a < 1.
Proof.
  intro H. assert (P : 0 < (601/100) ^ 2 / a) by (apply Rdiv_lt_0_compat; lra). unfold w_amp.
  set (W := (601/100) ^ 2 / a) in *. clearbody W. split; [apply Rdiv_lt_0_compat; lra|].
  apply (Rmult_lt_reg_r (W + (6010/6000) ^ 2)); [lra|]. unfold Rdiv at 1. rewrite Rmult_assoc, Rinv_l by lra. lra.
Qed.

Definition w_factors (a : R) : list R := [w_amp a; - w_amp a; 6/6010].
Lemma w_calibrated a : 0 < a ->
  calibrate false [2; 2; 0] [w_value a (5994/6010); w_value a (-6006/6010); 0] = w_factors a.
Proof.
  intro H. unfold calibrate, centred, w_factors. cbn [map map2 sumR].
  assert (E : (w_value a (5994/6010) * 2 + (w_value a (-6006/6010) * 2 + (0 * 0 + 0))) / (2 + (2 + (0 + 0))) = -6/6010).
  { pose proof (w_values_sum a H). lra. }
  rewrite E. destruct (w_amp_value a H) as [-> ->]. do 2 (apply f_equal2; [reflexivity|]). apply f_equal2; [lra|reflexivity].
Qed.

Definition w_model (a : R) : model :=
  {| o_scale := 1/1000; o_offset := 1/1000;
     o_groups := [{| m_dim := 1; m_nbins := [2%Z]; m_ext := false; m_values := [w_amp a; - w_amp a]; m_missing := 6/6010; m_smoother := true |}];
     o_iterations := 1; o_loss := (w_amp a - 1) ^ 2 + (1/1000) ^ 2 |}.

Section Runs.
Variables (gm : R -> R) (bppf : R -> R -> R -> R) (erfinv : R -> R) (bad : R).

Lemma heavy_fit : whole_fit gm bppf erfinv bad LocationRegressor false [w_group explicit_mean] w_cfg ex_rate 1 heavy = Trained (w_model (1201/100)).
Proof.
  set (a := 1201/100). assert (Ha : 0 < a) by (unfold a; lra).
  destruct heavy_lex as [L F].
  erewrite (one_pass gm bppf erfinv bad LocationRegressor false _ ex_rate heavy (1/1000) (1/1000) (w_factors a)
    {| p_factors := [1/1000; 1/1000]; p_exponents := zeros 2 |} [1/1000 + w_amp a; 1/1000 - w_amp a]).
  - unfold w_model. f_equal. f_equal.
    + cbn [kind_loss kind_link]. unfold squared_loss. cbn. field.
  - cbn [kind_scale kind_link]. unfold global_scale, weighted_mean. cbn [heavy map w_row x_y x_w sumR map2].
    rewrite (proj2 (Reqb_false_iff _ _)) by lra. cbn [link_func]. f_equal. field.
  - unfold kind_offset, prior_offset, link_option, weighted_mean. cbn [heavy map w_row x_prior x_w finite_values finite_weights sumR map2].
    rewrite (proj2 (Reqb_iff _ _)) by lra. reflexivity.
  - reflexivity.
  - assert (Mn : f_mnl (bind_group heavy 0 (w_group explicit_mean)) = false) by reflexivity.
    set (f := bind_group heavy 0 (w_group explicit_mean)) in *. clearbody f.
    unfold new_factors. cbv zeta. cbn [snd]. unfold group_smoother, group_estimates. cbn [nth_error]. rewrite L, F.
    cbn [estimates]. change (map x_y heavy) with [1; -1]. change (map x_w heavy) with [2; 2]. cbn [p_factors].
    rewrite heavy_estimates. fold a. rewrite Mn. cbn [map estimate_value estimate_uncertainty nth seq firstn s_zero init_fstate].
    cbn [w_group g_smoother]. unfold explicit_mean, cut_unseen, weighted_mean_bins.
    rewrite w_smoothed by auto. unfold bincounts. cbn [map seq nth bin_total Nat.eqb].
    rewrite !(proj2 (Reqb_false_iff _ _)) by lra. cbn [app]. unfold ex_rate. unfold kind_calibration, location_calibration. cbn [nth_error].
    rewrite L, F, Mn. rewrite <- (w_calibrated a) by auto.
    unfold bincounts. cbn [map seq bin_total Nat.eqb]. f_equal; repeat (f_equal; try lra).
  - cbn [p_factors]. rewrite L. cbn. repeat (f_equal; try lra).
  - pose proof (w_amp_bounds a Ha). cbn [kind_loss kind_link p_factors heavy w_row map x_y x_w]. unfold squared_loss. cbn.
    nra.
Qed.
Lemma twice_fit : whole_fit gm bppf erfinv bad LocationRegressor false [w_group explicit_mean] w_cfg ex_rate 1 twice = Trained (w_model (601/100)).
Proof.
  set (a := 601/100). assert (Ha : 0 < a) by (unfold a; lra).
  destruct twice_lex as [L F].
  erewrite (one_pass gm bppf erfinv bad LocationRegressor false _ ex_rate twice (1/1000) (1/1000) (w_factors a)
    {| p_factors := [1/1000; 1/1000; 1/1000; 1/1000]; p_exponents := zeros 4 |} [1/1000 + w_amp a; 1/1000 + w_amp a; 1/1000 - w_amp a; 1/1000 - w_amp a]).
  - unfold w_model. f_equal. f_equal.
    + cbn [kind_loss kind_link]. unfold squared_loss. cbn. field.
  - cbn [kind_scale kind_link]. unfold global_scale, weighted_mean. cbn [twice map w_row x_y x_w sumR map2].
    rewrite (proj2 (Reqb_false_iff _ _)) by lra. cbn [link_func]. f_equal. field.
  - unfold kind_offset, prior_offset, link_option, weighted_mean. cbn [twice map w_row x_prior x_w finite_values finite_weights sumR map2].
    rewrite (proj2 (Reqb_iff _ _)) by lra. reflexivity.
  - reflexivity.
  - assert (Mn : f_mnl (bind_group twice 0 (w_group explicit_mean)) = false) by reflexivity.
    set (f := bind_group twice 0 (w_group explicit_mean)) in *. clearbody f.
    unfold new_factors. cbv zeta. cbn [snd]. unfold group_smoother, group_estimates. cbn [nth_error]. rewrite L, F.
    cbn [estimates]. change (map x_y twice) with [1; 1; -1; -1]. change (map x_w twice) with [1; 1; 1; 1]. cbn [p_factors].
    rewrite twice_estimates. fold a. rewrite Mn. cbn [map estimate_value estimate_uncertainty nth seq firstn s_zero init_fstate].
    cbn [w_group g_smoother]. unfold explicit_mean, cut_unseen, weighted_mean_bins.
    rewrite w_smoothed by auto. unfold bincounts. cbn [map seq nth bin_total Nat.eqb].
    rewrite !(proj2 (Reqb_false_iff _ _)) by lra. cbn [app]. unfold ex_rate. unfold kind_calibration, location_calibration. cbn [nth_error].
    rewrite L, F, Mn. rewrite <- (w_calibrated a) by auto.
    unfold bincounts. cbn [map seq bin_total Nat.eqb]. f_equal; repeat (f_equal; try lra).
  - cbn [p_factors]. rewrite L. cbn. repeat (f_equal; try lra).
  - pose proof (w_amp_bounds a Ha). cbn [kind_loss kind_link p_factors twice w_row map x_y x_w]. unfold squared_loss. cbn.
    nra.
Qed.

Lemma w_fits_differ : w_model (1201/100) <> w_model (601/100).
Proof.
  intro E. apply (f_equal (fun m => match o_groups m with g :: _ => hd 0 (m_values g) | [] => 0 end)) in E. cbn in E.
  unfold w_amp in E. field_simplify in E. lra.
Qed.
End Runs.

Lemma heavy_twice : same_content heavy twice.
Proof.
  unfold heavy, twice. eapply sc_trans; [apply (sc_split _ 1 1); cbn; lra|].
  apply (content_app [w_row 0 1 1; w_row 0 1 1] [w_row 1 (-1) 2]). apply (sc_split (w_row 1 (-1) 2) 1 1 []). cbn. lra.
Qed.
Lemma heavy_well_formed s : well_formed [w_group s] heavy.
Proof.
  intros r [|i] g I G; cbn in G; [|destruct i; discriminate]. injection G as <-. destruct I as [<-|[<-|[]]]; reflexivity.
Qed.

Theorem weights_location gm bppf erfinv bad : exists gs cfg rate fuel D D' m m',
  well_formed gs D /\ same_content D D' /\
  whole_fit gm bppf erfinv bad LocationRegressor false gs cfg rate fuel D = Trained m /\
  whole_fit gm bppf erfinv bad LocationRegressor false gs cfg rate fuel D' = Trained m' /\
  o_groups m <> o_groups m'.
Proof.
  exists [w_group explicit_mean], w_cfg, ex_rate, 1%nat, heavy, twice, (w_model (1201/100)), (w_model (601/100)).
  split; [apply heavy_well_formed|]. split; [exact heavy_twice|]. split; [apply heavy_fit|]. split; [apply twice_fit|].
  intro E. apply (f_equal (fun m => match m with g :: _ => hd 0 (m_values g) | [] => 0 end)) in E. cbn in E.
  unfold w_amp in E. field_simplify in E. lra.
Qed.
