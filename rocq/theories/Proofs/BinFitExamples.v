(** Trainings with one iteration of the estimators that look at the rows of each bin. *)
From Coq Require Import ZArith QArith List Bool Reals Lra Lia Permutation.
From Verif.Model Require Import Num LexBins Train Predict Link Estimators WholeFit Quantile LossModes Dispersion BinFit BinSmoothers.
From Verif.Spec Require Import DataSpec QuantileSpec BinFitSpec.
From Verif.Proofs Require Import TrainFacts LinkFacts TrainExamples IsotonicRuns GenericFacts WholeExamples.
Import ListNotations.
Local Open Scope R_scope.

Lemma bin_pass row bins weight estimate loss start g rate scale offset D fs p1 :
  let f := bind_row_group row bins D 0 g in
  let p0 := {| p_factors := map start D; p_exponents := zeros (length D) |} in
  snd (new_factors (fun i it p => map fst (bin_estimates row estimate [f] D i it p))
    (fun i it p => bin_smoothing row weight estimate [g] [f] D i it p)
    (fun _ f => f) rate 0 f (init_fstate f) 0 p0) = fs ->
  vadd (map start D) (gather fs (f_lex f)) = p1 ->
  loss (combine D p1) <= loss (combine D (map start D)) * 2 ->
  bin_fit row bins weight estimate loss start [g] w_cfg rate scale offset 1 D = Trained
    {| o_scale := scale; o_offset := offset;
       o_groups := [store f {| s_fitted := true; s_factors := fs; s_old := zeros (S (f_finite f)); s_agg := Some fs; s_zero := false |}];
       o_iterations := 1; o_loss := loss (combine D p1) |}.
Proof.
  intros f p0 Hf Hp1 Hl. unfold bin_fit, bin_train. cbv zeta. cbn [bind_row_groups]. fold f. fold p0.
  set (calc := fun (i it : nat) (p : preds) => map fst (bin_estimates row estimate [f] D i it p)) in *.
  set (smth := fun (i it : nat) (p : preds) => bin_smoothing row weight estimate [g] [f] D i it p) in *.
  set (calb := fun (_ : nat) (f : list R) => f) in *.
  set (lss := fun p => loss (combine D (p_factors p))) in *.
  change (loss (combine D (map start D))) with (lss p0) in Hl.
  set (p1' := {| p_factors := p1; p_exponents := p_exponents p0 |}).
  assert (E : iteration w_cfg [f] calc smth calb rate lss (lss p0) (init_state [f] lss p0) =
    Ok {| t_preds := p1'; t_feats := [{| s_fitted := true; s_factors := fs; s_old := zeros (S (f_finite f)); s_agg := Some fs; s_zero := false |}];
          t_iter := 1; t_diverging := 0; t_isdiv := false; t_loss := lss p1'; t_losschange := loss_change (lss p0) (lss p1');
          t_delta := factors_deviation [{| s_fitted := true; s_factors := fs; s_old := zeros (S (f_finite f)); s_agg := Some fs; s_zero := false |}] |}).
  { unfold iteration, init_state. cbn [map t_feats t_iter t_preds t_isdiv t_diverging t_loss features_pass].
    change (skipped w_cfg f 0) with false. cbn iota. unfold feature_iteration. cbn [c_aggregate w_cfg ex_cfg].
    destruct (new_factors calc smth calb rate 0 f (init_fstate f) 0 p0) as [un ff]. cbn [snd] in Hf. subst ff.
    unfold visit_factors, limit_factors. cbn [c_log c_aggregate w_cfg ex_cfg andb s_fitted init_fstate s_zero s_factors].
    change (add_preds (f_ext f) p0 (gather fs (f_lex f))) with {| p_factors := vadd (p_factors p0) (gather fs (f_lex f)); p_exponents := p_exponents p0 |}.
    change (p_factors p0) with (map start D). rewrite Hp1. fold p1'. unfold is_diverged. rewrite (proj2 (Rltb_false _ _)) by (unfold lss at 2; cbn [p_factors p1']; exact Hl).
    cbn [andb]. reflexivity. }
  unfold fit_main. erewrite loop_step; [|apply start_continues|exact E].
  rewrite loop_end by reflexivity.
  unfold finish. cbn [t_feats forallb s_agg andb t_loss t_diverging]. rewrite andb_false_r. reflexivity.
Qed.

(** A smoother that keeps the values. *)
Definition keep_values : bin_smoother := fun _ _ _ v b => nth_error v b.

(** ** Dispersion: with a penalty and no usable likelihood the smallest dispersion wins. *)
Definition mean_heavy : list mean_row := map (fun s => (s, 1)) heavy.
Definition d_step : R := Rpower 10 (-3).
Definition d_model : model :=
  {| o_scale := 0; o_offset := 0;
     o_groups := [{| m_dim := 1; m_nbins := [2%Z]; m_ext := false; m_values := [- d_step; - d_step]; m_missing := - d_step; m_smoother := true |}];
     o_iterations := 1; o_loss := 400 + unlink_func Logit (- d_step) |}.
Lemma d_step_pos : 0 < d_step.
Proof. unfold d_step, Rpower. apply exp_pos. Qed.
Lemma d_links : new_c_links 1 1 = [- d_step; 0; d_step].
Proof. reflexivity. Qed.
Lemma sigmoid_up x y : x <= y -> 0 < sigmoid x <= sigmoid y.
Proof.
  intro H. unfold sigmoid. pose proof (exp_pos (- x)). pose proof (exp_pos (- y)).
  assert (exp (- y) <= exp (- x)). { destruct (Req_dec x y) as [->|N]; [lra|]. left. apply exp_increasing. lra. }
  split; [apply Rdiv_lt_0_compat; lra|]. unfold Rdiv. rewrite !Rmult_1_l. apply Rinv_le_contravar; lra.
Qed.
Lemma d_estimate rows : fst (dispersion_estimate (fun _ => None) 1 false 1 0 rows) = - d_step.
Proof.
  unfold dispersion_estimate. cbv zeta. unfold calc_parameters, calc_parameters_nbinom_c. rewrite d_links. cbn [seq map nth fst].
  match goal with |- context [map ?g rows] => set (l := map g rows) end.
  assert (L : forall a b, a <= b -> bin_loss (fun _ => None) l 1 0 a <= bin_loss (fun _ => None) l 1 0 b).
  { intros a b H. unfold bin_loss. induction (bin_rows l 0) as [|r q IH]; cbn [map sumR]; [lra|].
    apply Rplus_le_compat; [|exact IH]. unfold sample_loss. cbn. pose proof (sigmoid_up (a + c_link r) (b + c_link r) ltac:(lra)).
    rewrite !Rabs_pos_eq by lra. lra. }
  pose proof d_step_pos. unfold argmin, argmin_from. rewrite !(proj2 (Rltb_false _ _)) by (apply L; lra). reflexivity.
Qed.
Lemma dispersion_run : dispersion_fit (fun _ => None) 1 false 1 false [w_group keep_values] w_cfg ex_rate 1 mean_heavy = Trained d_model.
Proof.
  unfold dispersion_fit.
  erewrite (bin_pass mean_row _ _ _ _ _ (w_group keep_values) ex_rate 0 0 mean_heavy [- d_step; - d_step; - d_step] [- d_step; - d_step]).
  - unfold d_model. f_equal. f_equal. unfold dispersion_loss, loss_nbinom_c, mean. cbn [mean_heavy heavy map combine fst snd sumR length w_row].
    cbn [nbinom_log_pmf]. rewrite Rabs_pos_eq; [cbn [INR]; field|]. left. cbn. apply Rdiv_lt_0_compat; [lra|]. pose proof (exp_pos (- - d_step)). lra.
  - unfold new_factors, bin_smoothing, bin_estimates. cbv zeta. cbn [nth_error].
    set (f := bind_row_group _ _ _ _ _). assert (L : f_lex f = [0; 1]%nat) by reflexivity. assert (F : f_finite f = 2%nat) by reflexivity.
    rewrite F, L. cbn [seq map]. unfold ex_rate.
    rewrite !d_estimate. cbn. repeat (f_equal; try lra).
  - cbn. change (Pos.to_nat 1) with 1%nat. repeat (f_equal; try lra).
  - pose proof d_step_pos as P. unfold dispersion_loss, loss_nbinom_c, mean. cbn [mean_heavy heavy map combine fst snd sumR length w_row].
    cbn [nbinom_log_pmf]. change (unlink_func Logit) with sigmoid. pose proof (sigmoid_up (- d_step) 0 ltac:(lra)).
    unfold dispersion_start. rewrite !Rabs_pos_eq by lra. cbn [INR]. lra.
Qed.

(** ** Median regression with a minimiser that tries a step of two. *)
Definition try_two (f : R -> option R) (x : R) : R :=
  match f x, f 2 with Some a, Some b => if Rltb b a then 2 else x | _, _ => x end.
Definition as_is (A : Type) (l : list A) : list A := l.
Definition q_model : model :=
  {| o_scale := -1; o_offset := -1;
     o_groups := [{| m_dim := 1; m_nbins := [2%Z]; m_ext := false; m_values := [2; 0]; m_missing := 0; m_smoother := true |}];
     o_iterations := 1; o_loss := 0 |}.

Lemma q_scale : mode_scale insertion_sort (AdditiveQuantile (1/2)) heavy = Some (-1).
Proof.
  unfold mode_scale, quantile_global_scale, heavy. cbn [map mode_link link_option x_y x_w w_row].
  unfold continuous_quantile, insertion_sort. cbn [fold_right insert_row fst].
  destruct (Rle_dec 1 (-1)) as [H|_]; [lra|]. cbn [map sumR snd reaching]. rewrite (proj2 (Rleb_iff _ _)) by lra.
  unfold positions. cbn [map fst length seq filter nth]. rewrite (proj2 (Reqb_iff (-1) (-1))) by auto.
  rewrite (proj2 (Reqb_false_iff 1 (-1))) by lra. reflexivity.
Qed.
Lemma q_first bppf erfinv bad : fst (mode_estimate try_two bppf erfinv as_is bad (AdditiveQuantile (1/2)) [(w_row 0 1 2, -1)]) = 2.
Proof.
  unfold mode_estimate, as_is. cbv zeta. cbn [fst mode_link unlink_func]. unfold log_parameter. rewrite (proj2 (Reqb_iff 0 0)) by auto.
  unfold optimization, try_two, objective. cbn [or_bad mode_costs mode_model loss_rows map s_pred s_y s_w fst snd w_row x_y x_w unlink_func mode_link model_additive].
  unfold quantile_costs. cbn [sumR]. rewrite (proj2 (Reqb_false_iff _ _)) by lra. cbn [map2 map sumR].
  unfold pinball. rewrite !(proj2 (Rltb_false 1 _)) by lra. rewrite !(proj2 (Rleb_iff _ _)) by lra.
  rewrite (proj2 (Rltb_iff _ _)) by lra. reflexivity.
Qed.
Lemma q_second bppf erfinv bad : fst (mode_estimate try_two bppf erfinv as_is bad (AdditiveQuantile (1/2)) [(w_row 1 (-1) 2, -1)]) = 0.
Proof.
  unfold mode_estimate, as_is. cbv zeta. cbn [fst mode_link unlink_func]. unfold log_parameter. rewrite (proj2 (Reqb_iff 0 0)) by auto.
  unfold optimization, try_two, objective. cbn [or_bad mode_costs mode_model loss_rows map s_pred s_y s_w fst snd w_row x_y x_w unlink_func mode_link model_additive].
  unfold quantile_costs. cbn [sumR]. rewrite (proj2 (Reqb_false_iff _ _)) by lra. cbn [map2 map sumR].
  unfold pinball. rewrite (proj2 (Rltb_false (-1) (0 + -1))) by lra. rewrite (proj2 (Rleb_iff (0 + -1) (-1))) by lra.
  rewrite (proj2 (Rltb_iff (-1) (2 + -1))) by lra. rewrite (proj2 (Rleb_false (2 + -1) (-1))) by lra.
  rewrite (proj2 (Rltb_false _ _)) by lra. reflexivity.
Qed.
Lemma q_none bppf erfinv bad : fst (mode_estimate try_two bppf erfinv as_is bad (AdditiveQuantile (1/2)) []) = 0.
Proof.
  unfold mode_estimate, as_is. cbv zeta. cbn [fst mode_link unlink_func]. unfold log_parameter. rewrite (proj2 (Reqb_iff 0 0)) by auto.
  unfold optimization, try_two, objective. cbn. rewrite (proj2 (Rltb_false 0 0)) by lra. reflexivity.
Qed.
Lemma quantile_run bppf erfinv bad :
  mode_fit insertion_sort try_two bppf erfinv as_is bad (AdditiveQuantile (1/2)) false [w_group keep_values] w_cfg ex_rate 1 heavy = Trained q_model.
Proof.
  unfold mode_fit. rewrite q_scale. cbv zeta. cbn [mode_link].
  assert (PO : prior_offset Identity (-1) (map x_prior heavy) (map x_w heavy) = -1).
  { unfold prior_offset, link_option, weighted_mean. cbn [heavy map w_row x_prior x_w finite_values finite_weights sumR map2].
    rewrite (proj2 (Reqb_iff _ _)) by lra. reflexivity. }
  rewrite PO.
  erewrite (bin_pass _ _ _ _ _ _ (w_group keep_values) ex_rate (-1) (-1) heavy [2; 0; 0] [1; -1]).
  - unfold q_model. f_equal. f_equal. unfold mode_loss. cbn [heavy map combine loss_rows mode_costs mode_link s_y s_pred s_w fst snd w_row x_y x_w unlink_func].
    unfold quantile_costs. cbn [sumR]. rewrite (proj2 (Reqb_false_iff _ _)) by lra. cbn [map2 map sumR or_bad].
    unfold pinball. rewrite (proj2 (Rltb_false 1 1)), (proj2 (Rltb_false (-1) (-1))) by lra. field.
  - unfold new_factors, bin_smoothing, bin_estimates. cbv zeta. cbn [nth_error].
    set (f := bind_row_group _ _ _ _ _). assert (L : f_lex f = [0; 1]%nat) by reflexivity. assert (F : f_finite f = 2%nat) by reflexivity.
    rewrite F, L. cbn [seq map]. unfold ex_rate.
    unfold bin_content. cbn [heavy p_factors map combine filter fst snd Nat.eqb mode_start].
    rewrite q_first, q_second, q_none. cbn. repeat (f_equal; try lra).
  - cbn. change (Pos.to_nat 1) with 1%nat. repeat (f_equal; try lra).
  - unfold mode_loss. cbn [heavy map combine loss_rows mode_costs mode_link s_y s_pred s_w fst snd w_row x_y x_w unlink_func mode_start].
    unfold quantile_costs. cbn [sumR]. rewrite !(proj2 (Reqb_false_iff _ _)) by lra. cbn [map2 map sumR or_bad].
    unfold pinball. rewrite (proj2 (Rltb_false 1 1)), (proj2 (Rltb_false (-1) (-1))), (proj2 (Rltb_false 1 (-1))) by lra.
    rewrite (proj2 (Rleb_iff (-1) 1)), (proj2 (Rleb_iff 1 1)), (proj2 (Rleb_iff (-1) (-1))) by lra. lra.
Qed.
Lemma heavy_weighted : weighted_data heavy.
Proof. split; [|cbn; lra]. intros s [<-|[<-|[]]]; cbn; lra. Qed.
