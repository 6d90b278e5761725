(** Concrete training histories: witnesses and non-vacuity. *)
From Coq Require Import ZArith QArith List Bool Reals Lia Lra.
From Verif.Model Require Import Num LexBins Train.
From Verif.Spec Require Import TrainSpec.
From Verif.Proofs Require Import TrainFacts TrainHistory TrainBounds.
Import ListNotations.
Local Open Scope R_scope.

(** ** Evaluating the loop on concrete reals *)
Lemma clip_mid lo hi x : lo <= x <= hi -> clip lo hi x = x.
Proof. intro H. unfold clip, Rmin, Rmax. repeat destruct (Rle_dec _ _); lra. Qed.
Lemma clip_high lo hi x : hi <= x -> lo <= x -> clip lo hi x = hi.
Proof. intros H1 H2. unfold clip, Rmin, Rmax. repeat destruct (Rle_dec _ _); lra. Qed.
Lemma clip_low lo hi x : x <= lo <= hi -> clip lo hi x = lo.
Proof. intro H. unfold clip, Rmin, Rmax. repeat destruct (Rle_dec _ _); lra. Qed.
Lemma Rleb_false a b : Rleb a b = false <-> b < a.
Proof. unfold Rleb. destruct (Rle_dec a b); split; intro; try discriminate; auto; lra. Qed.

Lemma loop_step cfg fl calc smooth calib rate loss k i0 st st' :
  continues cfg st = true -> iteration cfg fl calc smooth calib rate loss i0 st = Ok st' ->
  loop cfg fl calc smooth calib rate loss (S k) i0 st = loop cfg fl calc smooth calib rate loss k i0 st'.
Proof. intros C E. cbn [loop]. rewrite C, E. reflexivity. Qed.
Lemma loop_raise cfg fl calc smooth calib rate loss k i0 st e :
  continues cfg st = true -> iteration cfg fl calc smooth calib rate loss i0 st = Raise e ->
  loop cfg fl calc smooth calib rate loss (S k) i0 st = Some (Raise e).
Proof. intros C E. cbn [loop]. rewrite C, E. reflexivity. Qed.
Lemma loop_end cfg fl calc smooth calib rate loss k i0 st :
  continues cfg st = false -> loop cfg fl calc smooth calib rate loss k i0 st = Some (finish i0 st).
Proof. intros C. destruct k; cbn [loop]; rewrite C; reflexivity. Qed.

Lemma ln2_lt_1 : ln 2 < 1.
Proof.
  rewrite <- (ln_exp 1). apply ln_increasing; [lra|]. pose proof (exp_ineq1 1 ltac:(lra)). lra.
Qed.
Lemma ln_facts : 0 < ln 2 < 1 /\ ln (1/2) = - ln 2 /\ - ln 2 <= ln (8/10) <= 0 /\ 0 <= ln (12/10) <= ln 2 /\
  ln (1/100) <= - ln 2 /\ ln 2 <= ln 1000.
Proof.
  pose proof ln2_pos. pose proof ln2_lt_1. pose proof ln_half.
  split; [lra|]. split; [auto|]. rewrite <- ln_half.
  split; [split; [apply ln_le_mono; lra|rewrite <- ln_1; apply ln_le_mono; lra]|].
  split; [split; [rewrite <- ln_1; apply ln_le_mono; lra|apply ln_le_mono; lra]|].
  split; apply ln_le_mono; lra.
Qed.

Ltac real_step := match goal with
  | |- context [Rabs ?a] => first [rewrite (Rabs_pos_eq a) by lra | rewrite (Rabs_left1 a) by lra]
  | |- context [Rltb ?a ?b] => first [rewrite (proj2 (Rltb_iff a b)) by lra | rewrite (proj2 (Rltb_false a b)) by lra]
  | |- context [Rleb ?a ?b] => first [rewrite (proj2 (Rleb_iff a b)) by lra | rewrite (proj2 (Rleb_false a b)) by lra]
  | |- context [Reqb ?a ?b] => unfold Reqb at 1; destruct (Req_EM_T a b); try lra
  | |- context [clip ?l ?h ?x] => first [rewrite (clip_mid l h x) by lra | rewrite (clip_high l h x) by lra | rewrite (clip_low l h x) by lra]
  end.
Ltac comp := lazy -[Rltb Rleb Reqb clip ln Rplus Rminus Ropp Rmult Rdiv Rinv IZR Rabs].
Ltac match_up := repeat (try reflexivity; try lra; f_equal).
Ltac evals := pose proof ln_facts; comp; repeat (real_step; comp).

Definition ex_feature (hier mnl : bool) : feature :=
  {| f_dim := 1; f_rows := [[Fin 0%Q]]; f_hier := hier; f_mnl := mnl; f_ext := false |}.
Definition ex_cfg (agg log hier : bool) (t m : nat) : settings :=
  {| c_aggregate := agg; c_log := log; c_hier := hier; c_thier := t; c_maxiter := m; c_minfactor := -1; c_minloss := -1 |}.
Definition ex_prior : preds := {| p_factors := [0]; p_exponents := [0] |}.
(** Loss with a bad region between two good ones. *)
Definition band_loss (p : preds) : R :=
  let x := nth 0 (p_factors p) 0 in if Rleb x 0 then 1 else if Rleb x 1 then 3 else 1.
Definition ex_calc (a b : R) (_ _ : nat) (_ : preds) : list R := [a; b].
Definition ex_smooth (_ _ : nat) (_ : preds) (v : list R) (k : nat) : option R := Some (nth k v 0).
Definition ex_id (_ : nat) (v : list R) := v.
Definition ex_rate (_ _ : nat) : R := 1.


Definition st_preds (x : R) : preds := {| p_factors := [x]; p_exponents := [0] |}.

(** ** A history without divergence *)
Notation gcfg := (ex_cfg true true false 0 2).
Notation gfeats := [ex_feature false false].
Definition flat_loss (_ : preds) : R := 1.
Notation g_fit := (fit_main gcfg gfeats (ex_calc (1/4) (1/8)) ex_smooth ex_id ex_rate flat_loss).
Notation g_iter := (iteration gcfg gfeats (ex_calc (1/4) (1/8)) ex_smooth ex_id ex_rate flat_loss 1).

(** The value 1/4 is below [ln 2]. *)
Lemma ln2_quarter : 1/4 <= ln 2.
Proof.
  rewrite <- (ln_exp (1/4)). apply ln_le_mono; [apply exp_pos|].
  pose proof (exp_ineq1 (-(1/4)) ltac:(lra)) as H.
  assert (H1 : exp (1/4) * exp (-(1/4)) = 1) by (rewrite <- exp_plus, Rplus_opp_r; apply exp_0).
  pose proof (exp_pos (1/4)). nra.
Qed.
Lemma ln_limits_1 : ln (1/100) <= - 1 /\ 1 <= ln 1000.
Proof.
  assert (H : exp 1 <= 3) by apply exp_le_3.
  split.
  - replace (1/100) with (/ 100) by lra. rewrite ln_Rinv by lra. apply Ropp_le_contravar.
    pose proof (ln_le_mono (exp 1) 100 (exp_pos 1) ltac:(lra)) as L. rewrite ln_exp in L. exact L.
  - pose proof (ln_le_mono (exp 1) 1000 (exp_pos 1) ltac:(lra)) as L. rewrite ln_exp in L. exact L.
Qed.

Definition g1 : state := {|
  t_preds := st_preds (1/4);
  t_feats := [{| s_fitted := true; s_factors := [1/4; 1/8]; s_old := [0; 0]; s_agg := Some [1/4; 1/8]; s_zero := false |}];
  t_iter := 1; t_diverging := 0; t_isdiv := false; t_loss := 1; t_losschange := 0; t_delta := 3/16 |}.
Definition g2 : state := {|
  t_preds := st_preds (1/2);
  t_feats := [{| s_fitted := true; s_factors := [1/4; 1/8]; s_old := [1/4; 1/8]; s_agg := Some [1/2; 1/4]; s_zero := false |}];
  t_iter := 2; t_diverging := 0; t_isdiv := false; t_loss := 1; t_losschange := 0; t_delta := 0 |}.
Lemma g_step1 : g_iter (init_state gfeats flat_loss ex_prior) = Ok g1.
Proof. pose proof ln2_quarter. pose proof ln_limits_1. evals. match_up. Qed.
Lemma g_step2 : g_iter g1 = Ok g2.
Proof. pose proof ln2_quarter. pose proof ln_limits_1. evals. match_up. Qed.
Lemma g_c0 : continues gcfg (init_state gfeats flat_loss ex_prior) = true.
Proof. evals. reflexivity. Qed.
Lemma g_c1 : continues gcfg g1 = true.
Proof. evals. reflexivity. Qed.
Lemma g_c2 : continues gcfg g2 = false.
Proof. evals. reflexivity. Qed.
Lemma g_run : g_fit 6 ex_prior = Some (Ok g2).
Proof.
  unfold fit_main. change (flat_loss ex_prior) with 1.
  rewrite (loop_step _ _ _ _ _ _ _ _ _ _ _ g_c0 g_step1), (loop_step _ _ _ _ _ _ _ _ _ _ _ g_c1 g_step2), (loop_end _ _ _ _ _ _ _ _ _ _ g_c2).
  evals. reflexivity.
Qed.
Lemma g_reached1 : reached gcfg gfeats (ex_calc (1/4) (1/8)) ex_smooth ex_id ex_rate flat_loss ex_prior g1.
Proof. eapply reached_next; [constructor|apply g_c0|apply g_step1]. Qed.

Lemma ex_well_shaped h m : well_shaped 1 [ex_feature h m] ex_prior.
Proof.
  split; [reflexivity|]. split; [reflexivity|]. intros f [<-|[]]. split; [reflexivity|]. intros row [<-|[]]. reflexivity.
Qed.
Lemma ex_one_per_bin h m a b : one_per_bin [ex_feature h m] (ex_calc a b) ex_id.
Proof.
  split; [|reflexivity]. intros [|[|i]] f it p H; cbn in H; try discriminate. injection H as <-. reflexivity.
Qed.

(** ** The clipping after a first divergence leaves the limits *)
Notation wcfg := (ex_cfg true true false 0 2).
Notation wfeats := [ex_feature false true].
Notation w_fit := (fit_main wcfg wfeats (ex_calc 12 5) ex_smooth ex_id ex_rate band_loss).
Notation w_iter := (iteration wcfg wfeats (ex_calc 12 5) ex_smooth ex_id ex_rate band_loss 1).

Definition w1 : state := {|
  t_preds := st_preds 0;
  t_feats := [{| s_fitted := true; s_factors := [ln 2; 0]; s_old := [0; 0]; s_agg := Some [0; 0]; s_zero := false |}];
  t_iter := 1; t_diverging := 1; t_isdiv := true; t_loss := 3; t_losschange := -2; t_delta := ln 2 / 2 |}.
Definition w2 : state := {|
  t_preds := st_preds (12 + ln (8/10));
  t_feats := [{| s_fitted := true; s_factors := [12 + ln (8/10); 5 + ln (8/10)]; s_old := [ln 2; 0];
                 s_agg := Some [12 + ln (8/10); 5 + ln (8/10)]; s_zero := false |}];
  t_iter := 2; t_diverging := 1; t_isdiv := false; t_loss := 1; t_losschange := 2 / 3;
  t_delta := (17 + 2 * ln (8/10) - ln 2) / 2 |}.

Lemma band_prior : band_loss ex_prior = 1.
Proof. evals. reflexivity. Qed.
Lemma w_step1 : w_iter (init_state wfeats band_loss ex_prior) = Ok w1.
Proof. evals. match_up. Qed.
Lemma w_step2 : w_iter w1 = Ok w2.
Proof. evals. match_up. Qed.
Lemma w_c0 : continues wcfg (init_state wfeats band_loss ex_prior) = true.
Proof. evals. reflexivity. Qed.
Lemma w_c1 : continues wcfg w1 = true.
Proof. evals. reflexivity. Qed.
Lemma w_c2 : continues wcfg w2 = false.
Proof. evals. reflexivity. Qed.
Lemma w_run : w_fit 6 ex_prior = Some (Ok w2).
Proof.
  unfold fit_main. rewrite band_prior.
  rewrite (loop_step _ _ _ _ _ _ _ _ _ _ _ w_c0 w_step1), (loop_step _ _ _ _ _ _ _ _ _ _ _ w_c1 w_step2), (loop_end _ _ _ _ _ _ _ _ _ _ w_c2).
  evals. reflexivity.
Qed.
Lemma w_reached1 : reached wcfg wfeats (ex_calc 12 5) ex_smooth ex_id ex_rate band_loss ex_prior w1.
Proof. eapply reached_next; [constructor|apply w_c0|rewrite band_prior; apply w_step1]. Qed.

(** ** Without aggregation a divergence takes factors back twice *)
Definition n_calc (_ it : nat) (_ : preds) : list R := match it with O => [1/2; 0] | _ => [2; 0] end.
Notation ncfg := (ex_cfg false false false 0 2).
Notation n_fit := (fit_main ncfg gfeats n_calc ex_smooth ex_id ex_rate band_loss).
Notation n_iter := (iteration ncfg gfeats n_calc ex_smooth ex_id ex_rate band_loss 1).
Definition n1 : state := {|
  t_preds := st_preds 0;
  t_feats := [{| s_fitted := true; s_factors := [1/2; 0]; s_old := [0; 0]; s_agg := Some [0; 0]; s_zero := false |}];
  t_iter := 1; t_diverging := 1; t_isdiv := true; t_loss := 3; t_losschange := -2; t_delta := 1/4 |}.
Definition n2 : state := {|
  t_preds := st_preds (3/2);
  t_feats := [{| s_fitted := true; s_factors := [2; 0]; s_old := [1/2; 0]; s_agg := Some [2; 0]; s_zero := false |}];
  t_iter := 2; t_diverging := 1; t_isdiv := false; t_loss := 1; t_losschange := 2 / 3; t_delta := 3/4 |}.
Lemma n_step1 : n_iter (init_state gfeats band_loss ex_prior) = Ok n1.
Proof. evals. match_up. Qed.
Lemma n_step2 : n_iter n1 = Ok n2.
Proof. evals. match_up. Qed.
Lemma n_c0 : continues ncfg (init_state gfeats band_loss ex_prior) = true.
Proof. evals. reflexivity. Qed.
Lemma n_c1 : continues ncfg n1 = true.
Proof. evals. reflexivity. Qed.
Lemma n_c2 : continues ncfg n2 = false.
Proof. evals. reflexivity. Qed.
Lemma n_run : n_fit 6 ex_prior = Some (Ok n2).
Proof.
  unfold fit_main. rewrite band_prior.
  rewrite (loop_step _ _ _ _ _ _ _ _ _ _ _ n_c0 n_step1), (loop_step _ _ _ _ _ _ _ _ _ _ _ n_c1 n_step2), (loop_end _ _ _ _ _ _ _ _ _ _ n_c2).
  evals. reflexivity.
Qed.

(** ** Hierarchical training with a divergence in the first iterations *)
Notation hcfg := (ex_cfg true true true 2 5).
Notation hfeats := [ex_feature true false; ex_feature false false].
Lemma h_run : fit_main hcfg hfeats (ex_calc 12 5) ex_smooth ex_id ex_rate band_loss 9 ex_prior = Some (Raise TypeError).
Proof.
  unfold fit_main. rewrite band_prior. apply loop_raise; evals; reflexivity.
Qed.
Lemma zero_run : fit_main (ex_cfg true true false 0 0) gfeats (ex_calc 12 5) ex_smooth ex_id ex_rate flat_loss 4 ex_prior = Some (Raise TypeError).
Proof.
  unfold fit_main. rewrite loop_end; evals; reflexivity.
Qed.

(** ** Five divergences *)
Definition bad_loss (p : preds) : R := let x := nth 0 (p_factors p) 0 in if Rleb x 0 then 1 else 3.
Definition small_calc (_ _ : nat) (_ : preds) : list R := [1/8; 0].
Notation bcfg := (ex_cfg true false false 0 9).
Notation b_iter := (iteration bcfg gfeats small_calc ex_smooth ex_id ex_rate bad_loss 1).
Definition b_st (n : nat) (old lo lc dl : R) : state := {|
  t_preds := st_preds 0;
  t_feats := [{| s_fitted := true; s_factors := [1/8; 0]; s_old := [old; 0]; s_agg := Some [0; 0]; s_zero := false |}];
  t_iter := n; t_diverging := n; t_isdiv := true; t_loss := lo; t_losschange := lc; t_delta := dl |}.
Lemma bad_prior : bad_loss ex_prior = 1.
Proof. evals. reflexivity. Qed.
Lemma b_run : fit_main bcfg gfeats small_calc ex_smooth ex_id ex_rate bad_loss 13 ex_prior = Some (Raise ConvergenceError).
Proof.
  unfold fit_main. rewrite bad_prior.
  rewrite (loop_step _ _ _ _ _ _ _ _ _ _ (b_st 1 0 3 (-2) (1/16))); [|evals; reflexivity|evals; match_up].
  rewrite (loop_step _ _ _ _ _ _ _ _ _ _ (b_st 2 (1/8) 3 0 0)); [|evals; reflexivity|evals; match_up].
  rewrite (loop_step _ _ _ _ _ _ _ _ _ _ (b_st 3 (1/8) 3 0 0)); [|evals; reflexivity|evals; match_up].
  rewrite (loop_step _ _ _ _ _ _ _ _ _ _ (b_st 4 (1/8) 3 0 0)); [|evals; reflexivity|evals; match_up].
  apply loop_raise; evals; reflexivity.
Qed.

(** ** Hierarchical training without divergence *)
Notation kcfg := (ex_cfg true false true 1 1).
Definition k1 : state := {|
  t_preds := st_preds (1/4);
  t_feats := [{| s_fitted := true; s_factors := [1/4; 1/8]; s_old := [0; 0]; s_agg := Some [1/4; 1/8]; s_zero := false |};
              {| s_fitted := false; s_factors := [0; 0]; s_old := [0; 0]; s_agg := None; s_zero := false |}];
  t_iter := 1; t_diverging := 0; t_isdiv := false; t_loss := 1; t_losschange := 0; t_delta := 3/32 |}.
Lemma k_reached1 : reached kcfg hfeats (ex_calc (1/4) (1/8)) ex_smooth ex_id ex_rate flat_loss ex_prior k1.
Proof.
  eapply reached_next; [constructor|evals; reflexivity|]. evals. match_up.
Qed.
Lemma k_c1 : continues kcfg k1 = true.
Proof. evals. reflexivity. Qed.
