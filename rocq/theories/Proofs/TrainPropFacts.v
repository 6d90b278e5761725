(** Training-loop facts in the form used by the property statements. *)
From Coq Require Import ZArith QArith List Bool Reals Lia Lra.
From Verif.Model Require Import Num LexBins Train.
From Verif.Spec Require Import TrainSpec.
From Verif.Proofs Require Import TrainFacts TrainHistory TrainBounds TrainExamples.
Import ListNotations.
Local Open Scope R_scope.

Lemma hierarchical_no_error cfg features calc smooth calib rate loss prior fuel :
  c_hier cfg = true -> (forall p, ~ diverges (loss prior) (loss p)) ->
  (iteration_bound cfg <= fuel)%nat ->
  exists st, fit_main cfg features calc smooth calib rate loss fuel prior = Some (Ok st).
Proof.
  intros H1 H2 H3. destruct (hier_no_type_error cfg features calc smooth calib rate loss prior fuel H1 H2) as (st & H). eauto.
Qed.

Lemma band_pos p : 0 < band_loss p.
Proof. unfold band_loss. destruct (Rleb _ 0); [lra|]. destruct (Rleb _ 1); lra. Qed.

Lemma hierarchical_type_error :
  exists cfg features calc smooth calib rate loss prior fuel,
    (0 < c_maxiter cfg)%nat /\ c_hier cfg = true /\ (forall p, 0 < loss p) /\
    fit_main cfg features calc smooth calib rate loss fuel prior = Some (Raise TypeError).
Proof.
  exists (ex_cfg true true true 2 5), [ex_feature true false; ex_feature false false], (ex_calc 12 5), ex_smooth, ex_id, ex_rate, band_loss, ex_prior, 9%nat.
  split; [cbn; lia|]. split; [reflexivity|]. split; [exact band_pos|exact h_run].
Qed.

Lemma zero_iterations :
  exists cfg features calc smooth calib rate loss prior fuel,
    c_maxiter cfg = 0%nat /\ c_hier cfg = false /\ (forall p, ~ diverges (loss prior) (loss p)) /\
    fit_main cfg features calc smooth calib rate loss fuel prior = Some (Raise TypeError).
Proof.
  exists (ex_cfg true true false 0 0), [ex_feature false false], (ex_calc 12 5), ex_smooth, ex_id, ex_rate, flat_loss, ex_prior, 4%nat.
  split; [reflexivity|]. split; [reflexivity|]. split; [intros p; unfold diverges, flat_loss; lra|exact zero_run].
Qed.

Lemma ex_c17 : iteration_bound (ex_cfg true true false 0 2) = 6%nat /\
  fit_main (ex_cfg true true false 0 2) [ex_feature false false] (ex_calc (1/4) (1/8)) ex_smooth ex_id ex_rate flat_loss 6 ex_prior = Some (Ok g2) /\
  some_iteration (ex_cfg true true false 0 2).
Proof.
  split; [reflexivity|]. split; [exact g_run|]. right. cbn [ex_cfg c_maxiter c_minfactor c_minloss].
  split; [lia|]. split; [lra|]. apply (Rlt_trans _ 0); [lra|]. apply IZR_lt. reflexivity.
Qed.

Lemma reached_loss cfg features calc smooth calib rate loss prior st :
  reached cfg features calc smooth calib rate loss prior st ->
  t_iter st = 0%nat \/ (t_isdiv st = true <-> diverges (loss prior) (t_loss st)).
Proof.
  destruct 1 as [|st st' H C E]; [left; reflexivity|right].
  destruct (iteration_ok _ _ _ _ _ _ _ _ _ _ E) as (sl & p & _ & _ & -> & _ & _ & -> & _).
  apply is_diverged_iff.
Qed.

Lemma stop_reason_main cfg features calc smooth calib rate loss prior fuel st :
  fit_main cfg features calc smooth calib rate loss fuel prior = Some (Ok st) ->
  ((c_maxiter cfg <= t_iter st)%nat \/ t_delta st <= c_minfactor cfg \/ Rabs (t_losschange st) <= c_minloss cfg) /\
  (t_iter st = 0%nat \/ ~ diverges (loss prior) (t_loss st)) /\
  (c_hier cfg = true -> (c_thier cfg < t_iter st)%nat).
Proof.
  intro E. destruct (stop_reason _ _ _ _ _ _ _ _ _ _ E) as (A & B & C). split; auto. split; auto.
  destruct (fit_reached _ _ _ _ _ _ _ _ _ _ E) as (R & F & _).
  destruct (reached_loss _ _ _ _ _ _ _ _ _ R) as [|I]; auto. right. intro D. apply I in D.
  unfold continues in F. rewrite D, orb_true_r in F. discriminate.
Qed.

Lemma never_diverging cfg features calc smooth calib rate loss prior st :
  reached cfg features calc smooth calib rate loss prior st ->
  (forall p, ~ diverges (loss prior) (loss p)) -> t_diverging st = 0%nat.
Proof.
  intros H Hn. induction H as [|st st' H IH C E]; [reflexivity|].
  destruct (iteration_ok _ _ _ _ _ _ _ _ _ _ E) as (sl & p & _ & _ & _ & _ & _ & D1 & D2 & _).
  destruct (t_isdiv st') eqn:D; [|congruence].
  exfalso. apply (Hn p). apply (is_diverged_iff (loss prior) (loss p)). auto.
Qed.

Lemma iterations_without_divergence cfg features calc smooth calib rate loss prior fuel st :
  c_hier cfg = false -> (forall p, ~ diverges (loss prior) (loss p)) ->
  fit_main cfg features calc smooth calib rate loss fuel prior = Some (Ok st) ->
  (t_iter st <= c_maxiter cfg)%nat.
Proof.
  intros Hh Hn E. destruct (fit_reached _ _ _ _ _ _ _ _ _ _ E) as (R & _ & _).
  apply (reached_iter_max cfg features calc smooth calib rate loss prior st R Hh).
  eapply never_diverging; eauto.
Qed.

Lemma criteria_values cfg features calc smooth calib rate loss prior st st' :
  reached cfg features calc smooth calib rate loss prior st -> continues cfg st = true ->
  iteration cfg features calc smooth calib rate loss (loss prior) st = Ok st' ->
  t_iter st' = S (t_iter st) /\
  (t_loss st <> 0 -> t_losschange st' = (t_loss st - t_loss st') / t_loss st) /\
  (t_isdiv st' = false -> t_loss st' = loss (t_preds st') /\
     t_delta st' = mean (map (fun s => mean (map Rabs (vsub (s_factors s) (s_old s)))) (t_feats st'))).
Proof.
  intros H C E. destruct (iteration_ok _ _ _ _ _ _ _ _ _ _ E) as (sl & p & _ & I1 & I2 & I3 & I4 & I5 & _ & _ & R).
  split; auto. split.
  - intro Hz. rewrite I3, I2. unfold loss_change, Reqb. destruct (Req_EM_T (t_loss st) 0); [contradiction|reflexivity].
  - intro D. rewrite D in R. injection R as R1 R2. subst. auto.
Qed.

Lemma within_of_limits f st m k x : (forall s a, nth_error (t_feats st) m = Some s -> s_agg s = Some a -> in_limits f a) ->
  learned_factor st m k x -> factor_within f x.
Proof.
  intros H (s & a & Hs & Ha & Hk & ->). specialize (H s a Hs Ha). apply (proj1 (limits_iff f a) H). auto.
Qed.

Lemma factors_within cfg features calc smooth calib rate loss prior N :
  well_shaped N features prior -> one_per_bin features calc calib ->
  forall st, reached cfg features calc smooth calib rate loss prior st ->
  c_aggregate cfg = true -> c_log cfg = true -> t_diverging st = 0%nat ->
  forall m f k x, nth_error features m = Some f -> learned_factor st m k x -> factor_within f x.
Proof.
  intros Hw Ho st H Ha Hl D m f k x Hm. apply within_of_limits. intros s a Hs Haa.
  exact (reached_limits cfg features calc smooth calib rate loss prior N Hw Ho st H Ha Hl D m f s a Hm Hs Haa).
Qed.

Lemma factors_within_again cfg features calc smooth calib rate loss prior N :
  well_shaped N features prior -> one_per_bin features calc calib ->
  forall st st', reached cfg features calc smooth calib rate loss prior st -> continues cfg st = true ->
  iteration cfg features calc smooth calib rate loss (loss prior) st = Ok st' ->
  c_aggregate cfg = true -> c_log cfg = true -> t_isdiv st' = false ->
  (t_isdiv st = true -> t_diverging st <> 1%nat) ->
  forall m f k x, nth_error features m = Some f -> learned_factor st' m k x -> factor_within f x.
Proof.
  intros Hw Ho st st' H C E Ha Hl D Hd m f k x Hm. apply within_of_limits. intros s a Hs Haa.
  exact (iteration_limits cfg features calc smooth calib rate loss prior N Hw Ho st st' H C E Ha Hl D Hd m f s a Hm Hs Haa).
Qed.

Lemma step_at_most_two cfg features calc smooth calib rate loss prior N :
  well_shaped N features prior -> one_per_bin features calc calib ->
  forall st st', reached cfg features calc smooth calib rate loss prior st -> continues cfg st = true ->
  iteration cfg features calc smooth calib rate loss (loss prior) st = Ok st' ->
  c_aggregate cfg = true -> c_log cfg = true -> t_diverging st' = 0%nat ->
  forall m k x x', learned_factor st m k x -> learned_factor st' m k x' -> x / 2 <= x' <= x * 2.
Proof.
  intros Hw Ho st st' H C E Ha Hl D m k x x' (s & a & Hs & Haa & Hk & ->) (s' & a' & Hs' & Haa' & Hk' & ->).
  pose proof (reached_inv cfg features calc smooth calib rate loss prior N Hw Ho st H) as [V1 V2].
  assert (Hf : exists f, nth_error features m = Some f).
  { destruct (nth_error features m) eqn:En; eauto. exfalso. apply nth_error_None in En.
    pose proof (Forall2_len _ _ _ V1). assert (m < length (t_feats st))%nat by (apply nth_error_Some; congruence). lia. }
  destruct Hf as (f & Hf). pose proof (Forall2_nth_error _ _ _ m f s V1 Hf Hs) as (_ & _ & S3 & _).
  rewrite (S3 a Haa) in Hk.
  pose proof (iteration_step cfg features calc smooth calib rate loss prior N Hw Ho st st' H C E Ha Hl D m f s s' k Hf Hs Hs' Hk) as B.
  unfold learned in B. rewrite Haa, Haa' in B.
  assert (E2 : exp (ln 2) = 2) by (apply exp_ln; lra).
  assert (Em : forall u v, u <= v -> exp u <= exp v).
  { intros u v [Hlt| ->]; [left; apply exp_increasing; auto|right; auto]. }
  split.
  - replace (exp (nth k a 0) / 2) with (exp (nth k a 0 + - ln 2)).
    + apply Em. lra.
    + rewrite exp_plus, exp_Ropp, E2. reflexivity.
  - replace (exp (nth k a 0) * 2) with (exp (nth k a 0 + ln 2)).
    + apply Em. lra.
    + rewrite exp_plus, E2. reflexivity.
Qed.

Lemma exp_nat n : 2 ^ n <= exp (INR n).
Proof.
  induction n as [|n IH]; [cbn; rewrite exp_0; lra|].
  rewrite S_INR, exp_plus. cbn [pow]. pose proof (exp_ineq1 1 ltac:(lra)). pose proof (pow_lt 2 n ltac:(lra)). nra.
Qed.

Lemma limits_refuted :
  exists cfg features calc smooth calib rate loss prior fuel st m f k x,
    well_shaped 1 features prior /\ one_per_bin features calc calib /\
    c_aggregate cfg = true /\ c_log cfg = true /\
    fit_main cfg features calc smooth calib rate loss fuel prior = Some (Ok st) /\
    nth_error features m = Some f /\ learned_factor st m k x /\ ~ factor_within f x.
Proof.
  exists (ex_cfg true true false 0 2), [ex_feature false true], (ex_calc 12 5), ex_smooth, ex_id, ex_rate, band_loss, ex_prior, 6%nat, w2, 0%nat, (ex_feature false true), 0%nat, (exp (12 + ln (8/10))).
  split; [apply ex_well_shaped|]. split; [apply ex_one_per_bin|]. split; [reflexivity|]. split; [reflexivity|].
  split; [exact w_run|]. split; [reflexivity|]. split.
  - exists (hd (init_fstate (ex_feature false true)) (t_feats w2)), [12 + ln (8/10); 5 + ln (8/10)]. cbn. repeat split; auto.
  - intros (H & _). specialize (H eq_refl eq_refl). destruct H as [_ H].
    rewrite exp_plus, exp_ln in H by lra.
    assert (A : 2 ^ 12 <= exp 12).
    { pose proof (exp_nat 12) as A. replace (INR 12) with 12 in A by (cbn; lra). exact A. }
    lra.
Qed.

Lemma ex_c20 : exists x, learned_factor g1 0 0 x /\ x <> 1 /\
  reached (ex_cfg true true false 0 2) [ex_feature false false] (ex_calc (1/4) (1/8)) ex_smooth ex_id ex_rate flat_loss ex_prior g1 /\
  well_shaped 1 [ex_feature false false] ex_prior /\ one_per_bin [ex_feature false false] (ex_calc (1/4) (1/8)) ex_id.
Proof.
  exists (exp (1/4)). split.
  - exists (hd (init_fstate (ex_feature false true)) (t_feats g1)), [1/4; 1/8]. cbn. repeat split; auto.
  - split; [pose proof (exp_ineq1 (1/4) ltac:(lra)); lra|]. split; [apply g_reached1|]. split; [apply ex_well_shaped|apply ex_one_per_bin].
Qed.

Lemma all_trained_each cfg features calc smooth calib rate loss prior fuel st m s :
  fit_main cfg features calc smooth calib rate loss fuel prior = Some (Ok st) ->
  nth_error (t_feats st) m = Some s -> s_agg s <> None.
Proof.
  intros E Hs. pose proof (all_trained _ _ _ _ _ _ _ _ _ _ E) as A. rewrite Forall_forall in A.
  apply A. eapply nth_error_In; eauto.
Qed.

Lemma ex_c21 :
  reached (ex_cfg true false true 1 1) [ex_feature true false; ex_feature false false] (ex_calc (1/4) (1/8)) ex_smooth ex_id ex_rate flat_loss ex_prior k1 /\
  continues (ex_cfg true false true 1 1) k1 = true /\ (t_iter k1 <= 1)%nat /\ f_hier (ex_feature false false) = false /\
  exists s, nth_error (t_feats k1) 0 = Some s /\ s_agg s = Some [1/4; 1/8].
Proof.
  split; [apply k_reached1|]. split; [apply k_c1|]. split; [cbn; lia|]. split; [reflexivity|].
  eexists. split; reflexivity.
Qed.

Lemma fifth_divergence_iff cfg features calc smooth calib rate loss prior ls st sl p :
  history cfg features calc smooth calib rate loss prior ls st ->
  features_pass cfg calc smooth calib rate loss 0 features (t_feats st) (t_iter st) (t_preds st) (t_isdiv st) (t_diverging st) (loss prior) = Ok (sl, p) ->
  (iteration cfg features calc smooth calib rate loss (loss prior) st = Raise ConvergenceError <->
   diverging_count (loss prior) ls 4 /\ diverges (loss prior) (loss p)).
Proof.
  intros H F. split.
  - intro E. destruct (convergence_error_reason _ _ _ _ _ _ _ _ _ _ H E) as (A & sl' & p' & F' & D).
    rewrite F in F'. injection F' as <- <-. auto.
  - intros [A D]. eapply fifth_divergence; eauto.
Qed.

Lemma rollback_main cfg features calc smooth calib rate loss prior N :
  well_shaped N features prior -> one_per_bin features calc calib ->
  forall st st', reached cfg features calc smooth calib rate loss prior st ->
  c_aggregate cfg = true -> continues cfg st = true ->
  iteration cfg features calc smooth calib rate loss (loss prior) st = Ok st' -> t_isdiv st' = true ->
  (forall e j, (j < N)%nat -> nth j (column e (t_preds st')) 0 = nth j (column e (t_preds st)) 0) /\
  (forall m s s' b, nth_error (t_feats st) m = Some s -> nth_error (t_feats st') m = Some s' ->
     nth b (learned s') 0 = nth b (learned s) 0).
Proof. intros Hw Ho st st'. apply (rollback cfg features calc smooth calib rate loss prior N Hw Ho). Qed.

Lemma rollback_refuted :
  exists cfg features calc smooth calib rate loss prior fuel st,
    well_shaped 1 features prior /\ one_per_bin features calc calib /\ c_aggregate cfg = false /\
    fit_main cfg features calc smooth calib rate loss fuel prior = Some (Ok st) /\
    nth 0 (p_factors (t_preds st)) 0 <> nth 0 (p_factors prior) 0 + contributions false features (map learned (t_feats st)) 0.
Proof.
  exists (ex_cfg false false false 0 2), [ex_feature false false], n_calc, ex_smooth, ex_id, ex_rate, band_loss, ex_prior, 6%nat, n2.
  split; [apply ex_well_shaped|]. split.
  { split; [|reflexivity]. intros [|[|i]] f it p H; cbn in H; try discriminate. injection H as <-. destruct it; reflexivity. }
  split; [reflexivity|]. split; [exact n_run|].
  assert (X : contributions false [ex_feature false false] (map learned (t_feats n2)) 0 = 2).
  { evals. lra. }
  rewrite X. cbn. lra.
Qed.

Lemma ex_c22 :
  reached (ex_cfg true true false 0 2) [ex_feature false true] (ex_calc 12 5) ex_smooth ex_id ex_rate band_loss ex_prior w1 /\
  t_isdiv w1 = true /\ band_loss ex_prior = 1 /\
  iteration (ex_cfg true true false 0 2) [ex_feature false true] (ex_calc 12 5) ex_smooth ex_id ex_rate band_loss 1
    (init_state [ex_feature false true] band_loss ex_prior) = Ok w1.
Proof. split; [apply w_reached1|]. split; [reflexivity|]. split; [apply band_prior|apply w_step1]. Qed.
