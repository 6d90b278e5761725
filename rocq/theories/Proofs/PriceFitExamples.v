(** Trainings of the price model with one iteration. *)
From Coq Require Import ZArith QArith Qreals List Bool Reals Lra Lia.
From Verif.Model Require Import Num LexBins Train Predict Link Estimators WholeFit Price PriceFit.
From Verif.Spec Require Import PredictSpec DataSpec PriceFitSpec.
From Verif.Proofs Require Import TrainFacts LinkFacts TrainExamples IsotonicRuns WholeExamples BinFitExamples PriceFitFacts.
Import ListNotations.
Local Open Scope R_scope.

Definition p_cfg : settings := ex_cfg true true false 0 1.
Lemma price_continues fl loss p : continues p_cfg (init_state fl loss p) = true.
Proof. exact (start_continues fl loss p). Qed.

(** One external group, one iteration, values that are not limited, no divergence. *)
Lemma price_pass gm a c var_l prior g rate D scale offset fs es p0 :
  global_scale Log (map (fun r => x_y (q_row r)) D) (map (fun r => x_w (q_row r)) D) = Some scale ->
  prior_offset Log scale (map (fun r => x_prior (q_row r)) D) (map (fun r => x_w (q_row r)) D) = offset ->
  let f := bind_price_group D 0 (g, true) in
  p0 = {| p_factors := prior_predictions scale offset (price_column prior D) (length D); p_exponents := zeros (length D) |} ->
  snd (new_factors (fun i _ p => fst (price_estimates gm a c var_l [f] D i p)) (fun i _ p => price_smoothing gm a c var_l [(g, true)] [f] D i p)
    (fun _ f => f) rate 0 f (init_fstate f) 0 p0) = fs ->
  clip_step fs = fs ->
  vadd (p_exponents p0) (gather fs (f_lex f)) = es ->
  price_loss D {| p_factors := p_factors p0; p_exponents := es |} <= price_loss D p0 * 2 ->
  price_fit gm a c var_l prior [(g, true)] p_cfg rate 1 D = Trained
    {| o_scale := scale; o_offset := offset;
       o_groups := [store f {| s_fitted := true; s_factors := fs; s_old := zeros (S (f_finite f)); s_agg := Some fs; s_zero := false |}];
       o_iterations := 1; o_loss := price_loss D {| p_factors := p_factors p0; p_exponents := es |} |}.
Proof.
  intros Hs Ho f Hp Hf Hc Hp1 Hl. unfold price_fit. cbv zeta. rewrite Hs, Ho. unfold price_train. cbv zeta. cbn [bind_price_groups]. fold f. rewrite <- Hp.
  set (calc := fun (i it : nat) (p : preds) => fst (price_estimates gm a c var_l [f] D i p)) in *.
  set (smth := fun (i it : nat) (p : preds) => price_smoothing gm a c var_l [(g, true)] [f] D i p) in *.
  set (calb := fun (_ : nat) (f : list R) => f) in *.
  set (lss := price_loss D) in *.
  set (p1' := {| p_factors := p_factors p0; p_exponents := es |}) in *.
  assert (E : iteration p_cfg [f] calc smth calb rate lss (lss p0) (init_state [f] lss p0) =
    Ok {| t_preds := p1'; t_feats := [{| s_fitted := true; s_factors := fs; s_old := zeros (S (f_finite f)); s_agg := Some fs; s_zero := false |}];
          t_iter := 1; t_diverging := 0; t_isdiv := false; t_loss := lss p1'; t_losschange := loss_change (lss p0) (lss p1');
          t_delta := factors_deviation [{| s_fitted := true; s_factors := fs; s_old := zeros (S (f_finite f)); s_agg := Some fs; s_zero := false |}] |}).
  { unfold iteration, init_state. cbn [map t_feats t_iter t_preds t_isdiv t_diverging t_loss features_pass].
    change (skipped p_cfg f 0) with false. cbn iota. unfold feature_iteration. cbn [c_aggregate p_cfg ex_cfg].
    destruct (new_factors calc smth calb rate 0 f (init_fstate f) 0 p0) as [un ff]. cbn [snd] in Hf. subst ff.
    unfold visit_factors, limit_factors. cbn [c_log c_aggregate p_cfg ex_cfg andb s_fitted init_fstate s_zero s_factors].
    rewrite Hc.
    change (add_preds (f_ext f) p0 (gather fs (f_lex f))) with {| p_factors := p_factors p0; p_exponents := vadd (p_exponents p0) (gather fs (f_lex f)) |}.
    rewrite Hp1. fold p1'. unfold is_diverged. rewrite (proj2 (Rltb_false _ _)) by exact Hl.
    cbn [andb]. reflexivity. }
  unfold fit_main. erewrite loop_step; [|apply price_continues|exact E].
  rewrite loop_end by reflexivity.
  unfold finish. cbn [t_feats forallb s_agg andb t_loss t_diverging]. rewrite andb_false_r. reflexivity.
Qed.

(** ** Rows at the reference price in one bin of an external group *)
Definition at_reference (e w : R) : price_sample := {| q_row := w_row 0 1 w; q_price := Fin 1; q_exponent := e |}.
Definition at_start (r : price_row) : Prop := pr_x r = 0 /\ pr_prior r = pr_k r /\ pr_lkp r = 0 /\ pr_bin r = 0%nat.
Lemma one_bin_total (rows : list price_row) (g : price_row -> R) : Forall at_start rows ->
  bin_total (lex rows) (map g rows) 0 = sumR (map g rows).
Proof.
  unfold lex. induction 1 as [|r rows (_ & _ & _ & B) H IH]; cbn; auto. rewrite B. cbn. rewrite IH. auto.
Qed.
Lemma no_data r l : at_start r -> jac_data r l = 0 /\ hess_data r l = 0.
Proof.
  intros (X & _). assert (Z : slope r = 0) by (unfold slope; rewrite X; lra).
  assert (J : jac_data r l = 0) by (unfold jac_data; rewrite Z; lra).
  split; auto. unfold hess_data. rewrite Z, J. lra.
Qed.
Lemma count_rows rows : Forall at_start rows -> bin_count rows 0 = INR (length rows).
Proof.
  intro H. unfold bin_count. rewrite one_bin_total by auto. clear H. induction rows; [reflexivity|].
  cbn [map sumR length]. rewrite IHrows, S_INR. lra.
Qed.
Lemma sum_same (rows : list price_row) (f g : price_row -> R) : (forall r, In r rows -> f r = g r) -> sumR (map f rows) = sumR (map g rows).
Proof. intro H. f_equal. apply map_ext_in, H. Qed.
Lemma jacobian_start rows : Forall at_start rows -> jacobian rows 1 0 1 = 0.
Proof.
  intro H. unfold jacobian. rewrite one_bin_total by auto. rewrite (sum_same rows _ (fun _ => 0)).
  - clear H. induction rows; cbn; lra.
  - intros r I. rewrite Forall_forall in H. pose proof (H r I) as S0. destruct (no_data r 1 S0) as [-> _]. destruct S0 as (_ & P & L & _).
    unfold jac_prior. rewrite P, L, ln_1. unfold Rdiv. ring.
Qed.
Lemma hessian_start rows : Forall at_start rows -> rows <> [] ->
  hessian rows 1 0 1 = sumR (map (fun r => 2 * (pr_k r * pr_k r + 3)) rows) / INR (length rows).
Proof.
  intros H N. unfold hessian. rewrite one_bin_total by auto.
  assert (Pos : INR (length rows) <> 0) by (apply not_0_INR; destruct rows; cbn; congruence).
  rewrite (sum_same rows _ (fun r => 2 * (pr_k r * pr_k r + 3) / INR (length rows))).
  - generalize (INR (length rows)) Pos. clear. intros n Hn. induction rows; cbn [map sumR]; [field; auto|rewrite IHrows; field; auto].
  - intros r I. pose proof (count_rows rows H) as C. rewrite Forall_forall in H. pose proof (H r I) as S0. destruct (no_data r 1 S0) as [_ ->]. destruct S0 as (_ & P & L & B).
    unfold hess_prior. rewrite L, ln_1, B, C. field. auto.
Qed.
Lemma sum_nonneg (rows : list price_row) (f : price_row -> R) : (forall r, In r rows -> 0 <= f r) -> 0 <= sumR (map f rows).
Proof.
  induction rows as [|r rows IH]; intro G; cbn [map sumR]; [lra|].
  assert (0 <= f r) by (apply G; left; auto). assert (0 <= sumR (map f rows)) by (apply IH; intros; apply G; right; auto). lra.
Qed.
Lemma jacobian_right rows : Forall at_start rows -> 0 <= jacobian rows 1 0 2.
Proof.
  intro H. unfold jacobian. rewrite one_bin_total by auto. destruct rows as [|r0 rows']; [cbn; lra|].
  pose proof (count_rows _ H) as C. set (rows := r0 :: rows') in *.
  assert (Pos : 0 < INR (length rows)) by (apply lt_0_INR; cbn; lia).
  assert (G : forall r, In r rows -> 0 <= jac_data r 2 + jac_prior rows 1 r 2).
  { intros r I. rewrite Forall_forall in H. pose proof (H r I) as S0. destruct (no_data r 2 S0) as [-> _]. destruct S0 as (_ & P & L & B).
    unfold jac_prior. rewrite P, L, B, C. pose proof ln_facts as LF. assert (0 < ln 2) by (rewrite <- ln_1; apply ln_increasing; lra).
    rewrite Rplus_0_l. apply Rmult_le_pos; [|left; apply Rinv_0_lt_compat; auto].
    assert (0 <= pr_k r * pr_k r) by apply Rle_0_sqr. unfold Rdiv. nra. }
  apply sum_nonneg. exact G.
Qed.
Lemma right_bound_stays gradient i x valid : existsb (fun b => b) (map2 andb valid (map negative (gradient x))) = false ->
  set_right_bound gradient (S i) x valid = x.
Proof. intro H. cbn [set_right_bound]. cbv zeta. rewrite H. reflexivity. Qed.
Lemma bisect_stops step i epsilon bins hs : 
  forallb (fun b => b) (map2 (bin_converged epsilon) (map2 check_valid bins (step (map b_val bins))) (step (map b_val bins))) = true ->
  bisect_loop step (S i) epsilon bins hs = (map2 check_valid bins (step (map b_val bins)), map hess (step (map b_val bins)), [map b_val bins]).
Proof. intro H. cbn [bisect_loop]. cbv zeta. rewrite H. reflexivity. Qed.
(** One Newton step from the start: it is the optimum already. *)
Lemma exponents_start gm rows w : Forall at_start rows -> rows <> [] -> 0 < w ->
  let h := sumR (map (fun r => 2 * (pr_k r * pr_k r + 3)) rows) / INR (length rows) in
  exponent_parameters gm rows 1 [w; 0] = Some (calc_factors_and_uncertainties gm [h; 0] [h; 0]).
Proof.
  intros H N W h.
  assert (Hp : 0 < h).
  { unfold h. apply Rdiv_lt_0_compat; [|apply lt_0_INR; destruct rows; cbn; [congruence|lia]]. destruct rows as [|r rows]; [congruence|]. clear.
    assert (P : forall r : price_row, 0 < 2 * (pr_k r * pr_k r + 3)) by (intro r0; assert (0 <= pr_k r0 * pr_k r0) by apply Rle_0_sqr; lra).
    cbn [map sumR]. assert (0 <= sumR (map (fun r => 2 * (pr_k r * pr_k r + 3)) rows)). { induction rows as [|q rows IH]; cbn [map sumR]; [lra|]. pose proof (P q). lra. }
    pose proof (P r). lra. }
  assert (E0 : empty_bin rows 0 = false).
  { unfold empty_bin, lex. destruct rows as [|r rows]; [congruence|]. inversion H; subst. destruct H2 as (_ & _ & _ & B). cbn. rewrite B. reflexivity. }
  assert (E1 : empty_bin rows 1 = true).
  { unfold empty_bin, lex. rewrite <- negb_false_iff, negb_involutive. clear -H. induction H as [|r rows (_ & _ & _ & B) H IH]; cbn; auto. rewrite B. cbn. exact IH. }
  unfold exponent_parameters, exponent_bins, newton_bisect. cbn [map]. rewrite (proj2 (Rltb_iff 0 w)) by auto. rewrite (proj2 (Rltb_false 0 0)) by lra.
  assert (RB : set_right_bound (newton_gradient rows 1) 10 [2; 2] [true; false] = [2; 2]).
  { apply right_bound_stays. unfold newton_gradient, newton_step. cbn [length seq map2 map]. unfold bin_step. rewrite E0, E1. rewrite (proj2 (Rltb_iff 0 2)) by lra. cbv zeta. cbn [jac negative andb].
    rewrite (proj2 (Rltb_false _ 0)) by (apply jacobian_right; auto). reflexivity. }
  rewrite RB.
  assert (ST : newton_step rows 1 [1; 1] = [{| new_l := RFin (1 - 0 / h); jac := RFin 0; hess := RFin h |}; {| new_l := RNaN; jac := RFin 0; hess := RFin 0 |}]).
  { unfold newton_step. cbn [length seq map2]. unfold bin_step. rewrite E0, E1. rewrite (proj2 (Rltb_iff 0 1)) by lra. cbv zeta.
    rewrite (jacobian_start rows H), (hessian_start rows H N). fold h. rewrite (proj2 (Reqb_false_iff _ _)) by lra. reflexivity. }
  assert (BL : bisect_loop (newton_step rows 1) 10 (1/100) (initial_bins [true; false] [0; 0] [2; 2] (Some [1; 1])) [] =
    ([{| b_valid := true; b_xl := 0; b_xr := 2; b_val := 1 |}; {| b_valid := false; b_xl := 0; b_xr := 2; b_val := 1 |}], [RFin h; RFin 0], [[1; 1]])).
  { unfold initial_bins. cbn [map2 existsb]. rewrite (proj2 (Rltb_false 1 0)) by lra. rewrite (proj2 (Rltb_false 2 1)) by lra. cbn [orb combine map2 fst snd].
    rewrite bisect_stops; cbn [map b_val]; rewrite ST; cbn [map2 check_valid b_valid b_xl b_xr b_val jac hess new_l is_finite andb]; auto.
    unfold bin_converged. cbn [b_valid b_xl b_xr b_val jac value negb]. rewrite Rabs_R0. rewrite (proj2 (Rltb_iff 0 (1/100))) by lra. reflexivity. }
  cbv zeta. rewrite BL. cbn [r_l r_variance map b_val inverse_hessian]. rewrite (proj2 (Reqb_false_iff h 0)) by lra.
  assert (IH : 0 < 1 / h) by (apply Rdiv_lt_0_compat; lra).
  rewrite (proj2 (Rleb_false _ _)) by exact IH. rewrite (proj2 (Reqb_iff 0 0) eq_refl).
  cbn [map2 moment_matching]. rewrite (proj2 (Reqb_false_iff (1/h) 0)) by lra. cbn [map fst snd].
  replace (1 / (1 / h)) with h by (field; lra). rewrite Rmult_1_r. reflexivity.
Qed.

(** The median of a gamma distribution is about a third below its parameter. *)
Definition third (x : R) : R := x - 1 / 3.
Definition exponent_value (h : R) : R := ln ((h + 2 - 1 / 3) / (h + 167834 / 100000)).
Lemma exponent_value_fine h : 0 <= h <= 100 -> factor_from_posterior third (h + gamma_alpha_prior) (h + gamma_beta_prior) = exponent_value h.
Proof.
  intro H. unfold factor_from_posterior, posterior_estimate, exponent_value, third, gamma_alpha_prior, gamma_beta_prior.
  rewrite !(proj2 (Rleb_iff _ _)) by lra. reflexivity.
Qed.
Lemma exponent_value_small h : 0 <= h -> ln (1 / 2) <= exponent_value h <= ln 2.
Proof.
  intro H. assert (1 / 2 < (h + 2 - 1 / 3) / (h + 167834 / 100000) < 2).
  { split; (apply Rmult_lt_reg_r with (h + 167834 / 100000); [lra|]);
    replace ((h + 2 - 1 / 3) / (h + 167834 / 100000) * (h + 167834 / 100000)) with (h + 2 - 1 / 3) by (field; lra); lra. }
  unfold exponent_value. split; left; apply ln_increasing; lra.
Qed.
Definition mean_square (D : list price_sample) : R := sumR (map (fun r => 2 * (q_exponent r * q_exponent r + 3)) D) / INR (length D).
Definition u_group : group := w_group keep_values.
Lemma reference_run a c D scale : Forall (fun r => exists e w, r = at_reference e w /\ e <> 0) D -> D <> [] ->
  let f := bind_price_group D 0 (u_group, true) in
  f_lex f = map (fun _ => 0%nat) D -> f_finite f = 1%nat -> 
  global_scale Log (map (fun r => x_y (q_row r)) D) (map (fun r => x_w (q_row r)) D) = Some scale ->
  0 < sumR (map (fun r => x_w (q_row r)) D) -> 0 <= mean_square D <= 100 -> Forall (fun r => 0 <= x_w (q_row r)) D ->
  exists l o, price_fit third a c 1 false [(u_group, true)] p_cfg ex_rate 1 D = Trained
    {| o_scale := scale; o_offset := o; o_groups := [store f {| s_fitted := true; s_factors := [exponent_value (mean_square D); exponent_value 0];
         s_old := zeros (S (f_finite f)); s_agg := Some [exponent_value (mean_square D); exponent_value 0]; s_zero := false |}];
       o_iterations := 1; o_loss := l |}.
Proof.
  intros U N f Lx Fn Sc W H Wp.
  set (p0 := {| p_factors := prior_predictions scale (prior_offset Log scale (map (fun r => x_prior (q_row r)) D) (map (fun r => x_w (q_row r)) D)) (price_column false D) (length D); p_exponents := zeros (length D) |}).
  assert (P1 : p_factors p0 = map (fun _ => scale) D) by (unfold p0; cbn [p_factors]; rewrite price_priors; reflexivity).
  assert (P2 : p_exponents p0 = map (fun _ => 0) D) by (unfold p0, zeros; cbn [p_exponents]; clear; induction D; cbn; f_equal; auto).
  assert (ES : price_estimates third a c 1 [f] D 0 p0 =
    calc_factors_and_uncertainties third [mean_square D; 0] [mean_square D; 0]).
  { unfold price_estimates. cbn [nth_error]. change (f_ext f) with true. cbv zeta iota. rewrite Lx, Fn.
    rewrite (exponent_rows_map a c (fun _ => 0%nat) _ _ D p0 P1 P2).
    assert (BW : map (bound_weight true) D = map (fun r => x_w (q_row r)) D).
    { apply map_ext_in. intros r I. rewrite Forall_forall in U. destruct (U r I) as (e & w & -> & _). reflexivity. }
    assert (B : bincounts (map (fun _ : price_sample => 0%nat) D) (map (fun r => x_w (q_row r)) D) 2 = [sumR (map (fun r => x_w (q_row r)) D); 0]).
    { unfold bincounts. cbn [seq map]. apply f_equal2; [|apply f_equal2; [|reflexivity]]; clear; induction D; cbn; auto; rewrite IHD; lra. }
    rewrite BW, B. rewrite exponents_start; auto.
    - assert (M : sumR (map (fun r => 2 * (pr_k r * pr_k r + 3)) (map (fun r => exponent_row a c r (link_of (fun _ => scale) (fun _ => 0) r) 0) D)) /
                  INR (length (map (fun r => exponent_row a c r (link_of (fun _ => scale) (fun _ => 0) r) 0) D)) = mean_square D).
      { rewrite map_map, map_length. unfold mean_square. f_equal. f_equal. apply map_ext. intro r. cbn [pr_k exponent_row]. unfold exponents, link_of.
        cbn [lr_prior_exponents lr_exponents]. rewrite exp_0, Rmult_1_r. reflexivity. }
      rewrite M. reflexivity.
    - apply Forall_forall. intros r I. apply in_map_iff in I. destruct I as (s & <- & I). rewrite Forall_forall in U. destruct (U s I) as (e & w & -> & Ne).
      assert (K : exponents (link_of (fun _ => scale) (fun _ => 0) (at_reference e w)) = e) by (unfold exponents; cbn; rewrite exp_0; lra).
      unfold at_start, exponent_row. cbn [pr_x pr_prior pr_k pr_lkp pr_bin]. rewrite K. split; [unfold link_of, external_base; cbn; unfold Q2R; cbn; lra|]. split; [reflexivity|]. split; [|reflexivity].
      change (lr_prior_exponents (link_of (fun _ => scale) (fun _ => 0) (at_reference e w))) with e.
      unfold Rdiv. rewrite Rinv_r by auto. apply ln_1.
    - destruct D; [congruence|discriminate]. }
  assert (VA : fst (calc_factors_and_uncertainties third [mean_square D; 0] [mean_square D; 0]) = [exponent_value (mean_square D); exponent_value 0]).
  { unfold calc_factors_and_uncertainties. cbn [fst map map2]. rewrite !exponent_value_fine by lra. reflexivity. }
  assert (SC : forall es, length es = length D -> price_scores D {| p_factors := p_factors p0; p_exponents := es |} = p_factors p0).
  { intros es L. rewrite neutral_scores; auto; cbn [p_factors p_exponents].
    - eapply Forall_impl; [|exact U]. intros r (e & w & -> & _). reflexivity.
    - rewrite P1. apply map_length. }
  eexists. eexists.
  eapply (price_pass third a c 1 false u_group ex_rate D scale _ _ _ p0 Sc eq_refl eq_refl).
  - fold f. unfold new_factors. rewrite ES. cbv zeta. change (f_mnl f) with false. cbn iota. rewrite Fn. cbn [seq map s_zero init_fstate].
    unfold price_smoothing. cbn [nth_error fst u_group w_group g_smoother keep_values firstn]. rewrite VA. cbn [firstn nth_error nth snd app]. unfold ex_rate. rewrite Rmult_1_l, Rmult_1_r. reflexivity.
  - unfold clip_step. cbn [map]. rewrite !clip_mid by (apply exponent_value_small; lra). reflexivity.
  - reflexivity.
  - fold f. unfold price_loss. rewrite SC. 
    + assert (P : price_scores D p0 = p_factors p0) by (specialize (SC (p_exponents p0)); apply SC; rewrite P2; apply map_length). rewrite P.
      assert (0 <= squared_loss (map exp (p_factors p0)) (map (fun r => x_y (q_row r)) D) (map (fun r => x_w (q_row r)) D)).
      { unfold squared_loss. apply Rmult_le_pos; [|left; apply Rinv_0_lt_compat; auto]. rewrite P1. clear -Wp.
        induction Wp as [|r D H Wp IH]; cbn [map map2 sumR]; [lra|].
        apply Rplus_le_le_0_compat; auto. apply Rmult_le_pos; auto. apply Rle_0_sqr. }
      lra.
    + rewrite P2. unfold vadd, gather. rewrite Lx, map_map, map2_maps. apply map_length.
Qed.

Definition p_rest : list price_sample := [at_reference (-2) 1].
Definition p_heavy : list price_sample := at_reference (-1) 2 :: p_rest.
Definition p_twice : list price_sample := price_copies (at_reference (-1) 2) 2 ++ p_rest.
Definition p_scale : R := ln (1 + 1 / 1000).
Definition p_model (h l o : R) : model :=
  {| o_scale := p_scale; o_offset := o;
     o_groups := [{| m_dim := 1; m_nbins := [1%Z]; m_ext := true; m_values := [exponent_value h]; m_missing := exponent_value 0; m_smoother := true |}];
     o_iterations := 1; o_loss := l |}.
Lemma p_heavy_run a c : exists l o, price_fit third a c 1 false [(u_group, true)] p_cfg ex_rate 1 p_heavy = Trained (p_model 11 l o).
Proof.
  assert (M : mean_square p_heavy = 11) by (unfold mean_square; cbn; field).
  destruct (reference_run a c p_heavy p_scale) as (l & o & ->); try rewrite M; try reflexivity; try lra; try discriminate.
  - repeat constructor; do 2 eexists; (split; [reflexivity|lra]).
  - unfold global_scale. cbn [p_heavy p_rest map at_reference q_row w_row x_y x_w]. unfold weighted_mean. cbn. rewrite (proj2 (Reqb_false_iff _ _)) by lra. cbn.
    replace ((1 * 2 + (1 * 1 + 0)) / (2 + (1 + 0)) + 1 / 1000) with (1 + 1 / 1000) by field. rewrite (proj2 (Rltb_iff _ _)) by lra. reflexivity.
  - cbn. lra.
  - repeat constructor; cbn; lra.
  - exists l, o. reflexivity.
Qed.
Lemma p_twice_run a c : exists l o, price_fit third a c 1 false [(u_group, true)] p_cfg ex_rate 1 p_twice = Trained (p_model 10 l o).
Proof.
  assert (M : mean_square p_twice = 10) by (unfold mean_square; cbn; field).
  destruct (reference_run a c p_twice p_scale) as (l & o & ->); try rewrite M; try reflexivity; try lra; try discriminate.
  - change p_twice with [at_reference (-1) 1; at_reference (-1) 1; at_reference (-2) 1]. repeat (apply Forall_cons; [do 2 eexists; (split; [reflexivity|lra])|]). apply Forall_nil.
  - unfold global_scale. cbn [p_twice p_rest price_copies repeat app map at_reference q_row w_row x_y x_w]. unfold weighted_mean. cbn. rewrite (proj2 (Reqb_false_iff _ _)) by lra. cbn.
    replace ((1 * 1 + (1 * 1 + (1 * 1 + 0))) / (1 + (1 + (1 + 0))) + 1 / 1000) with (1 + 1 / 1000) by field. rewrite (proj2 (Rltb_iff _ _)) by lra. reflexivity.
  - cbn. lra.
  - change p_twice with [at_reference (-1) 1; at_reference (-1) 1; at_reference (-2) 1]. repeat (apply Forall_cons; [cbn; lra|]). apply Forall_nil.
  - exists l, o. reflexivity.
Qed.

(** Predictions for a row with a price. *)
Lemma p_model_predict h l o : 0 <= h -> price_fit_predict false (p_model h l o) [with_price (at_reference (-1) 1) (Fin 2)] =
  [exp (p_scale + - ((h + 2 - 1 / 3) / (h + 167834 / 100000)))].
Proof.
  intro H. destruct (price_rows false (p_model h l o) [with_price (at_reference (-1) 1) (Fin 2)]) as [L P].
  pose proof (f_equal (fun z => match z with Some z => z | None => 0 end) (P 0%nat _ eq_refl)) as Q. clear P.
  destruct (price_fit_predict _ _ _) as [|v [|]]; try discriminate. cbn [nth_error] in Q. cbv beta iota in Q. rewrite Q. clear Q.
  apply f_equal2; [|reflexivity]. apply f_equal.
  set (x := x_bins (q_row (with_price (at_reference (-1) 1) (Fin 2)))).
  assert (G : group_sum alone true 0 (o_groups (p_model h l o)) x = exponent_value h) by (transitivity (1 * exponent_value h + 0); [reflexivity|lra]).
  assert (F : group_sum alone false 0 (o_groups (p_model h l o)) x = 0) by (transitivity (0 + 0); [reflexivity|lra]).
  rewrite G, F. assert (E : exp (exponent_value h) = (h + 2 - 1 / 3) / (h + 167834 / 100000)) by (apply exp_ln, Rdiv_lt_0_compat; lra).
  rewrite E. cbn [prior_of price_column p_model o_scale with_price q_exponent at_reference q_price external_base]. unfold Q2R. cbn. lra.
Qed.
Theorem price_copies_differ : exists r rest x, x_w (q_row r) = INR 2 /\ forall a c, exists t t',
  price_fit third a c 1 false [(u_group, true)] p_cfg ex_rate 1 (r :: rest) = Trained t /\
  price_fit third a c 1 false [(u_group, true)] p_cfg ex_rate 1 (price_copies r 2 ++ rest) = Trained t' /\
  price_fit_predict false t [x] <> price_fit_predict false t' [x].
Proof.
  exists (at_reference (-1) 2), p_rest, (with_price (at_reference (-1) 1) (Fin 2)). split; [cbn; lra|]. intros a c.
  destruct (p_heavy_run a c) as (l & o & H). destruct (p_twice_run a c) as (l' & o' & H'). exists (p_model 11 l o), (p_model 10 l' o').
  split; [exact H|]. split; [exact H'|]. rewrite !p_model_predict by lra. intro E. injection E as E. apply exp_inv in E.
  assert (Q : (11 + 2 - 1 / 3) / (11 + 167834 / 100000) = (10 + 2 - 1 / 3) / (10 + 167834 / 100000)) by lra.
  lra.
Qed.
