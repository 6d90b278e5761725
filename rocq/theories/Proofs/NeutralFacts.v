(** Bins whose factor stays neutral during training; row-wise prediction. *)
From Coq Require Import ZArith QArith Qround List Bool Reals Lia Lra.
From Verif.Model Require Import Num LexBins Train Predict.
From Verif.Spec Require Import LexSpec TrainSpec PredictSpec.
From Verif.Proofs Require Import NumFacts FnumOrder LexFacts TrainFacts TrainHistory TrainBounds PredictFacts.
Import ListNotations.
Local Open Scope R_scope.

Lemma clip_zero lo hi : lo <= 0 <= hi -> clip lo hi 0 = 0.
Proof. intro H. unfold clip, Rmin, Rmax. repeat destruct (Rle_dec _ _); lra. Qed.

Lemma nth_zeros_map (l : list R) b : nth b (map (fun _ => 0) l) 0 = 0.
Proof. revert b. induction l; intros [|b]; cbn; auto. Qed.

Section Neutral.
Variable cfg : settings.
Variable features : list feature.
Variable calc : nat -> nat -> preds -> list R.
Variable smooth : nat -> nat -> preds -> list R -> nat -> option R.
Variable calib : nat -> list R -> list R.
Variable rate : nat -> nat -> R.
Variable loss : preds -> R.
Variable prior : preds.
Notation iter := (iteration cfg features calc smooth calib rate loss).
Notation hist := (reached cfg features calc smooth calib rate loss prior).
Notation fit := (fit_main cfg features calc smooth calib rate loss).
Variable N : nat.
Hypothesis Hw : well_shaped N features prior.
Hypothesis Ho : one_per_bin features calc calib.

Definition neutral_at (b : nat) (s : fstate) : Prop := nth b (s_factors s) 0 = 0 /\ nth b (learned s) 0 = 0.

Lemma visit_neutral f s u fs p d k i0 s' b : shaped f s -> length u = S (f_finite f) -> length fs = S (f_finite f) ->
  (b < S (f_finite f))%nat -> nth b fs 0 = 0 -> neutral_at b s ->
  (c_log cfg && c_aggregate cfg = false \/ d = false) ->
  visit_factors cfg loss f s u fs p d k i0 = Ok s' -> neutral_at b s'.
Proof.
  intros Hs Hu Hf Hb Hz [N1 N2] Hor E. unfold visit_factors in E.
  destruct (limit_factors cfg loss f s u fs p d k i0) as [[fs' z]|] eqn:El; [|discriminate].
  pose proof (limit_factors_length cfg loss f s u fs p d k i0 fs' z Hs Hu Hf El) as L.
  destruct Hs as (S1 & S2 & S3 & S4).
  assert (Z : nth b fs' 0 = 0).
  { unfold limit_factors in El. destruct (c_log cfg && c_aggregate cfg) eqn:Ela.
    2:{ injection El as <- <-. auto. }
    destruct Hor as [| ->]; [discriminate|]. cbv zeta in El. injection El as <- <-.
    assert (Z1 : nth b (clip_step fs) 0 = 0).
    { unfold clip_step. rewrite (nth_indep _ 0 (clip (ln (1/2)) (ln 2) 0)) by (rewrite map_length; lia).
      rewrite map_nth, Hz. apply clip_zero. pose proof ln2_pos. rewrite ln_half. lra. }
    destruct (s_fitted s) eqn:Ef; auto. destruct (s_agg s) as [a|] eqn:Ea; auto.
    pose proof (S3 a eq_refl) as La.
    rewrite nth_clip_absolute by (unfold clip_step; rewrite ?map_length; lia). rewrite Z1.
    unfold learned in N2. rewrite Ea in N2. rewrite N2. apply clip_zero.
    pose proof (step_in_limits f 0 ltac:(pose proof ln2_pos; lra)). lra. }
  injection E as <-. split; cbn [s_factors]; auto. unfold learned. cbn [s_agg].
  destruct (s_fitted s && c_aggregate cfg); auto. destruct (s_agg s) as [a|] eqn:Ea; auto.
  rewrite nth_vadd by (rewrite (S3 a eq_refl); auto). unfold learned in N2. rewrite Ea in N2. lra.
Qed.

Variable m : nat.
Variable f : feature.
Hypothesis Hm : nth_error features m = Some f.
Variable b : nat.
Hypothesis Hb : (b < S (f_finite f))%nat.
Hypothesis Hzero : forall s it p, nth b (snd (new_factors calc smooth calib rate m f s it p)) 0 = 0.

Lemma reached_neutral st : hist st -> (c_log cfg && c_aggregate cfg = false \/ t_diverging st = 0%nat) ->
  forall s, nth_error (t_feats st) m = Some s -> neutral_at b s.
Proof.
  induction 1 as [|st st' H IH C E]; intros Hor s' Hs'.
  - cbn in Hs'. rewrite nth_error_map, Hm in Hs'. injection Hs' as <-. split.
    + cbn [s_factors init_fstate]. unfold zeros. destruct (Nat.ltb_spec b (S (f_finite f))); [|lia].
      apply nth_repeat.
    + unfold learned. cbn [s_agg init_fstate]. apply nth_zeros_map.
  - assert (Hor' : c_log cfg && c_aggregate cfg = false \/ t_diverging st = 0%nat).
    { destruct Hor as [|D]; auto. right. eapply diverging_zero_prev; eauto. }
    assert (Hdiv : c_log cfg && c_aggregate cfg = false \/ t_isdiv st = false).
    { destruct Hor' as [|D]; auto. right. destruct (t_isdiv st) eqn:X; auto.
      destruct (reached_isdiv_iter cfg features calc smooth calib rate loss prior st H X). lia. }
    destruct (iteration_ok _ _ _ _ _ _ _ _ _ _ E) as (sl & p & F & _ & _ & _ & _ & _ & _ & _ & Rm).
    pose proof (reached_inv cfg features calc smooth calib rate loss prior N Hw Ho st H) as [V1 V2].
    pose proof (reached_length cfg features calc smooth calib rate loss prior st H) as L.
    assert (X : forall s1, nth_error sl m = Some s1 -> neutral_at b s1).
    { intros s1 Hs1.
      destruct (fpass_each _ _ _ _ _ _ _ _ _ _ _ _ _ _ _ _ m s1 (eq_sym L) F Hs1) as (f1 & s & G1 & G2 & G3).
      rewrite Hm in G1. injection G1 as <-.
      pose proof (Forall2_nth_error _ _ _ m f s V1 Hm G2) as Sh.
      pose proof (IH Hor' s G2) as Ns.
      destruct (skipped cfg f (t_iter st)).
      - subst s1. exact Ns.
      - destruct G3 as (q & q' & G3). unfold feature_iteration in G3. cbv zeta in G3.
        set (p0 := if c_aggregate cfg then q else _) in G3. cbn [Nat.add] in G3.
        pose proof (new_factors_length features calc smooth calib rate Ho m f s (t_iter st) p0 Hm) as [L1 L2].
        pose proof (Hzero s (t_iter st) p0) as Zp.
        destruct (new_factors calc smooth calib rate m f s (t_iter st) p0) as [u fs]. cbn [fst snd] in L1, L2, Zp.
        destruct (visit_factors _ _ _ _ _ _ _ _ _ _) as [s2|] eqn:Ev; [|discriminate]. injection G3 as <- _.
        exact (visit_neutral f s u fs p0 _ _ _ s2 b Sh L1 L2 Hb Zp Ns Hdiv Ev). }
    destruct (t_isdiv st') eqn:D.
    + destruct (features_pass_ok cfg features calc smooth calib rate loss prior N Hw Ho features 0 (t_feats st) _ _ _ _ _ sl p (fun m f H => H) V1 V2 F) as (F1 & F2 & _).
      destruct (remove_preds_ok features prior N Hw features sl p _ _ (fun x H => H) F1 F2 Rm) as (R1 & R2 & R3 & _).
      assert (Hex : exists s1, nth_error sl m = Some s1).
      { destruct (nth_error sl m) eqn:En; eauto. exfalso. apply nth_error_None in En.
        pose proof (Forall2_len _ _ _ F1). assert (m < length features)%nat by (apply nth_error_Some; congruence). lia. }
      destruct Hex as (s1 & Hs1). destruct (R3 m s1 Hs1) as (a & Ea & Es). rewrite Hs' in Es. injection Es as ->.
      destruct (X s1 Hs1) as [X1 X2]. split; cbn [s_factors]; auto.
      pose proof (Forall2_nth_error _ _ _ m f s1 F1 Hm Hs1) as (A1 & A2 & A3 & A4).
      unfold learned. cbn [s_agg]. rewrite nth_vsub by (rewrite (A3 a Ea); auto).
      unfold learned in X2. rewrite Ea in X2. lra.
    + injection Rm as -> ->. auto.
Qed.

Lemma fit_neutral fuel st s : fit fuel prior = Some (Ok st) ->
  (c_log cfg && c_aggregate cfg = false \/ t_diverging st = 0%nat) ->
  nth_error (t_feats st) m = Some s -> exists a, s_agg s = Some a /\ length a = S (f_finite f) /\ nth b a 0 = 0.
Proof.
  intros E Hor Hs. destruct (fit_reached cfg features calc smooth calib rate loss prior fuel st E) as (R & _ & _).
  pose proof (all_trained cfg features calc smooth calib rate loss prior fuel st E) as A.
  rewrite Forall_forall in A. specialize (A s (nth_error_In _ _ Hs)). unfold has_agg in A.
  destruct (s_agg s) as [a|] eqn:Ea; [|congruence]. exists a. split; auto.
  pose proof (reached_inv cfg features calc smooth calib rate loss prior N Hw Ho st R) as [V1 _].
  pose proof (Forall2_nth_error _ _ _ m f s V1 Hm Hs) as (_ & _ & S3 & _). split; [apply S3; auto|].
  destruct (reached_neutral st R Hor s Hs) as [_ X]. unfold learned in X. rewrite Ea in X. auto.
Qed.

End Neutral.

(** ** The missing bin *)
Section Uses.
Variable cfg : settings.
Variable features : list feature.
Variable calc : nat -> nat -> preds -> list R.
Variable smooth : nat -> nat -> preds -> list R -> nat -> option R.
Variable calib : nat -> list R -> list R.
Variable rate : nat -> nat -> R.
Variable loss : preds -> R.
Variable prior : preds.
Notation fit := (fit_main cfg features calc smooth calib rate loss).
Variable N : nat.
Hypothesis Hw : well_shaped N features prior.
Hypothesis Ho : one_per_bin features calc calib.

Lemma predict_factors_nth mm rows j row : nth_error rows j = Some row ->
  nth_error (predict_factors mm rows) j = Some (rowpred mm row).
Proof. intro H. rewrite predict_factors_rowpred, nth_error_map, H. reflexivity. Qed.

Lemma fit_agg fuel st m f s : fit fuel prior = Some (Ok st) -> nth_error features m = Some f ->
  nth_error (t_feats st) m = Some s -> exists a, s_agg s = Some a /\ length a = S (f_finite f) /\ learned s = a.
Proof.
  intros E Hm Hs. destruct (fit_reached cfg features calc smooth calib rate loss prior fuel st E) as (R & _ & _).
  pose proof (all_trained cfg features calc smooth calib rate loss prior fuel st E) as A.
  rewrite Forall_forall in A. specialize (A s (nth_error_In _ _ Hs)). unfold has_agg in A.
  destruct (s_agg s) as [a|] eqn:Ea; [|congruence]. exists a. split; auto.
  pose proof (reached_inv cfg features calc smooth calib rate loss prior N Hw Ho st R) as [V1 _].
  pose proof (Forall2_nth_error _ _ _ m f s V1 Hm Hs) as (_ & _ & S3 & _). split; [apply S3; auto|].
  unfold learned. rewrite Ea. reflexivity.
Qed.

Lemma prediction_contributes fuel st m f s rows j row : fit fuel prior = Some (Ok st) -> nth_error features m = Some f ->
  (1 <= f_dim f)%nat -> nth_error (t_feats st) m = Some s -> nth_error rows j = Some row ->
  exists x, nth_error (predict_factors (store f s) rows) j = Some x /\
    contributes (f_nbins f) (firstn (f_finite f) (learned s)) (nth (f_finite f) (learned s) 0) row x.
Proof.
  intros E Hm Hd Hs Hj. destruct (fit_agg fuel st m f s E Hm Hs) as (a & Ea & La & Hl).
  exists (rowpred (store f s) row). split; [apply predict_factors_nth; auto|]. rewrite Hl.
  apply rowpred_contributes; auto. destruct Hw as (_ & _ & W). apply W. eapply nth_error_In; eauto.
Qed.

Lemma missing_not_learned_neutral fuel st m f s rows j row : fit fuel prior = Some (Ok st) ->
  (c_log cfg && c_aggregate cfg = false \/ t_diverging st = 0%nat) ->
  nth_error features m = Some f -> (1 <= f_dim f)%nat -> f_mnl f = true ->
  (forall v, calib m (v ++ [0]) = firstn (length v) (calib m (v ++ [0])) ++ [0]) ->
  nth_error (t_feats st) m = Some s -> nth_error rows j = Some row -> missing_entry row ->
  nth_error (predict_factors (store f s) rows) j = Some 0.
Proof.
  intros E Hor Hm Hd Hmnl Hc Hs Hj Hmiss.
  destruct (prediction_contributes fuel st m f s rows j row E Hm Hd Hs Hj) as (x & Hx & C1 & _).
  rewrite Hx, (C1 Hmiss). f_equal.
  destruct (fit_agg fuel st m f s E Hm Hs) as (a & Ea & La & Hl). rewrite Hl.
  assert (HZ : forall s it p, nth (f_finite f) (snd (new_factors calc smooth calib rate m f s it p)) 0 = 0).
  { intros s0 it p. cbn [new_factors snd]. rewrite Hmnl. set (v := map _ (seq 0 (f_finite f))).
    assert (Lv : length v = f_finite f) by (unfold v; rewrite map_length, seq_length; auto).
    destruct Ho as [_ H2]. pose proof (H2 m (v ++ [0]) ltac:(intro E0; apply app_eq_nil in E0; destruct E0; discriminate)) as L2. rewrite app_length in L2. cbn in L2.
    rewrite Hc. rewrite app_nth2; rewrite firstn_length_le by lia; rewrite Lv; [|lia]. rewrite Nat.sub_diag. reflexivity. }
  destruct (fit_neutral cfg features calc smooth calib rate loss prior N Hw Ho m f Hm (f_finite f) ltac:(lia)
    HZ fuel st s E Hor Hs) as (a' & Ea' & _ & Z). congruence.
Qed.

(** ** Categories without training rows *)
Lemma bincount_unseen lex : forall w k,
  (forall j x, nth_error lex j = Some k -> nth_error w j = Some x -> (x == 0)%Q) -> (bincount lex w k == 0)%Q.
Proof.
  induction lex as [|b lex IH]; intros [|x w] k H; cbn [bincount]; try reflexivity.
  rewrite IH by (intros j y Hj Hy; apply (H (S j) y); auto).
  destruct (Nat.eqb_spec b k) as [->|]; [|reflexivity].
  rewrite (H 0%nat x eq_refl eq_refl). reflexivity.
Qed.

Lemma not_occurs_weight f t w : (1 <= f_dim f)%nat -> (forall r, In r (f_rows f) -> length r = f_dim f) ->
  valid_tuple (f_nbins f) t -> ~ occurs f w t ->
  unseen (finite_bin_weightsums f w) (number (f_nbins f) t).
Proof.
  intros Hd Hr Hv Hno. pose proof (number_range _ _ Hv) as Rg.
  destruct (f_shape_or_empty f Hd Hr) as [(S1 & S2 & S3)|(E1 & E2 & E3)].
  2:{ exfalso. rewrite E1 in Hv. destruct (f_dim f); [lia|]. inversion Hv; subst. lia. }
  unfold unseen, finite_bin_weightsums. rewrite nth_error_map.
  assert (Hs : nth_error (seq 0 (f_finite f)) (Z.to_nat (number (f_nbins f) t)) = Some (Z.to_nat (number (f_nbins f) t))).
  { rewrite (nth_error_nth' _ 0%nat) by (rewrite seq_length; lia). rewrite seq_nth by lia. reflexivity. }
  rewrite Hs. cbn [option_map]. apply bincount_unseen. intros j x Hj Hx.
  assert (Hbj : nth j (f_lex f) 0%nat = Z.to_nat (number (f_nbins f) t)) by (apply nth_error_nth; auto).
  assert (Lj : (j < length (f_lex f))%nat) by (apply nth_error_Some; congruence).
  rewrite f_lex_length in Lj.
  assert (Hn : nth_error (f_rows f) j = Some (nth j (f_rows f) [])) by (apply nth_error_nth'; auto).
  rewrite (f_lex_nth f Hd Hr j _ Hn) in Hbj. set (row := nth j (f_rows f) []) in *.
  destruct (row_finite_semi_positive row) eqn:Es; [|lia].
  destruct (Qeq_dec x 0) as [|Nx]; [assumption|]. exfalso.
  apply Hno. exists j, row, x. split; [exact Hn|]. split; [exact Hx|]. split; [exact Nx|]. split.
  - intro Hm. apply semi_positive_iff in Hm. congruence.
  - pose proof (nth_error_In _ _ Hn) as Hin. pose proof (Hr row Hin) as Lr.
    pose proof (data_rows_valid _ _ _ Hr Hin Es) as V. rewrite <- f_nbins_data in V.
    pose proof (f_nbins_length f Hr) as Ln.
    destruct (valid_floors (f_nbins f) row ltac:(rewrite Ln; auto) V) as [_ V2].
    pose proof (number_range _ _ V2).
    apply (number_injective (f_nbins f)); auto.
    unfold lex_value in Hbj. rewrite dot_number in Hbj by (rewrite map_length, Ln; auto). lia.
Qed.

Lemma centres_nth n t : shape n -> valid_tuple n t ->
  nth_error (centre_rows (arange_multi n)) (Z.to_nat (number n t)) = Some (map (fun k => Fin (inject_Z k)) t).
Proof.
  intros Hs Hv. pose proof (number_range _ _ Hv) as Rg. unfold centre_rows. rewrite arange_multi_rows, map_map by auto.
  rewrite nth_error_map. rewrite (nth_error_nth' _ 0%nat) by (rewrite seq_length; lia). rewrite seq_nth by lia.
  cbn [option_map]. rewrite Nat.add_0_l, Z2Nat.id by lia. do 2 f_equal.
  apply (number_injective n); auto; [apply digits_valid; auto|]. apply number_digits; auto.
Qed.
Lemma holds_inject t : holds_tuple (map (fun k => Fin (inject_Z k)) t) t.
Proof. induction t; constructor; auto. eexists. split; reflexivity. Qed.

Lemma cut_unseen n w v t : shape n -> (1 <= length n)%nat -> weights_for n w -> valid_tuple n t -> unseen w (number n t) ->
  discontinuous_cut n w v (Z.to_nat (number n t)) = None.
Proof.
  intros Hs Hn Hwt Hv Hu. unfold discontinuous_cut. rewrite set_n_bins_shape by auto.
  assert (Hr : forall r, In r (centre_rows (arange_multi n)) -> length r = length n).
  { intros r Hin. unfold centre_rows in Hin. apply in_map_iff in Hin. destruct Hin as (z & <- & Hin). rewrite map_length.
    rewrite arange_multi_rows in Hin by auto. apply in_map_iff in Hin. destruct Hin as (i & <- & _).
    apply valid_length, digits_valid. auto. }
  destruct (mask_valid (length n) _ w n Hs Hwt eq_refl Hn Hr) as (l & El & Ll & M1 & _). rewrite El.
  pose proof (centres_nth n t Hs Hv) as Hc.
  assert (Hb : exists b, nth_error l (Z.to_nat (number n t)) = Some b).
  { destruct (nth_error l _) eqn:En; eauto. exfalso. apply nth_error_None in En. rewrite Ll in En.
    assert (nth_error (centre_rows (arange_multi n)) (Z.to_nat (number n t)) = None) by (apply nth_error_None; auto). congruence. }
  destruct Hb as (b & Hb). rewrite (nth_error_nth _ _ false Hb).
  rewrite (proj2 (M1 _ _ t b Hc Hb (holds_inject t) Hv) Hu). reflexivity.
Qed.

Lemma unseen_category_neutral fuel st m f s raw w rows j row t : fit fuel prior = Some (Ok st) ->
  (c_log cfg && c_aggregate cfg = false \/ t_diverging st = 0%nat) ->
  nth_error features m = Some f -> (1 <= f_dim f)%nat ->
  (forall it p v, smooth m it p v = discontinuous_cut (f_nbins f) (finite_bin_weightsums f w) (raw it p v)) ->
  (forall v, calib m v = v) ->
  nth_error (t_feats st) m = Some s -> nth_error rows j = Some row ->
  holds_tuple row t -> valid_tuple (f_nbins f) t -> ~ occurs f w t ->
  nth_error (predict_factors (store f s) rows) j = Some 0.
Proof.
  intros E Hor Hm Hd Hsm Hc Hs Hj Hh Hv Hno.
  assert (Hr : forall r, In r (f_rows f) -> length r = f_dim f) by (destruct Hw as (_ & _ & W3); apply W3; eapply nth_error_In; eauto).
  destruct (prediction_contributes fuel st m f s rows j row E Hm Hd Hs Hj) as (x & Hx & _ & C2 & _).
  rewrite Hx, (C2 t Hh Hv). f_equal.
  destruct (f_shape_or_empty f Hd Hr) as [(S1 & S2 & S3)|(E1 & E2 & E3)].
  2:{ exfalso. rewrite E1 in Hv. destruct (f_dim f); [lia|]. inversion Hv; subst. lia. }
  pose proof (number_range _ _ Hv) as Rg.
  destruct (fit_agg fuel st m f s E Hm Hs) as (a & Ea & La & Hl). rewrite Hl.
  rewrite nth_firstn by lia.
  set (k := Z.to_nat (number (f_nbins f) t)) in *.
  assert (Hk : (k < f_finite f)%nat) by (unfold k; lia).
  assert (HZ : forall s it p, nth k (snd (new_factors calc smooth calib rate m f s it p)) 0 = 0).
  { intros s0 it p. cbn [new_factors snd]. rewrite Hc.
    rewrite app_nth1 by (rewrite map_length, seq_length; auto).
    match goal with |- nth k (map ?g _) 0 = 0 => rewrite (nth_indep _ 0 (g 0%nat)) by (rewrite map_length, seq_length; auto); rewrite (map_nth g) end.
    rewrite seq_nth by auto. rewrite Nat.add_0_l. destruct (s_zero _); [lra|]. rewrite Hsm. unfold k.
    rewrite cut_unseen; auto.
    - rewrite (f_nbins_length f Hr). auto.
    - left. unfold finite_bin_weightsums. rewrite map_length, seq_length. lia.
    - apply not_occurs_weight; auto. }
  destruct (fit_neutral cfg features calc smooth calib rate loss prior N Hw Ho m f Hm k ltac:(lia)
    HZ fuel st s E Hor Hs) as (a' & Ea' & _ & Z). congruence.
Qed.

End Uses.

(** ** Row-wise decomposition *)
Lemma alone_rowpred m row : alone m row = rowpred m row.
Proof. unfold alone. rewrite predict_factors_rowpred. reflexivity. Qed.
Lemma group_sum_ext c c' e ms : (forall m row, c m row = c' m row) -> forall i x, group_sum c e i ms x = group_sum c' e i ms x.
Proof. intro H. induction ms as [|m ms IH]; intros i x; cbn [group_sum]; auto. rewrite IH, H. reflexivity. Qed.

Lemma batch_decomposes e ms prior X j : length (p_factors prior) = length X -> length (p_exponents prior) = length X ->
  (j < length X)%nat ->
  nth j (column e (predict_extended ms prior X)) 0 =
  nth j (column e prior) 0 + group_sum alone e 0 ms (nth j X (fun _ => [])).
Proof.
  intros H1 H2 Hj. destruct (predict_column (length X) e ms 0 prior X j (conj H1 H2) eq_refl Hj) as [_ P].
  unfold predict_extended, column. unfold col in P. rewrite P. f_equal. apply group_sum_ext. intros; symmetry; apply alone_rowpred.
Qed.

Lemma predict_rows unlink scale offset ms linked X : 
  (forall l, linked = Some l -> length l = length X) ->
  length (cb_predict unlink scale offset ms linked X) = length X /\
  forall j x, nth_error X j = Some x ->
    nth_error (cb_predict unlink scale offset ms linked X) j =
    Some (unlink (prior_of scale offset linked j + group_sum alone false 0 ms x)).
Proof.
  intro Hl. unfold cb_predict.
  set (pr := {| p_factors := _; p_exponents := _ |}).
  assert (L1 : length (p_factors pr) = length X).
  { cbn. unfold prior_predictions. destruct linked as [l|]; [rewrite map_length; auto|apply repeat_length]. }
  assert (L2 : length (p_exponents pr) = length X) by apply repeat_length.
  assert (Lp : length (p_factors (predict_extended ms pr X)) = length X).
  { clearbody pr. unfold predict_extended. clear -L1 L2. generalize 0%nat. revert pr L1 L2.
    induction ms as [|m ms IH]; intros pr L1 L2 i; cbn [predict_from]; auto. destruct (plen_add (length X) (m_ext m) pr (predict_factors m (map (fun x => x i) X)) (conj L1 L2)) as [A B].
    - rewrite predict_factors_rowpred, !map_length. auto.
    - apply IH; auto. }
  split; [rewrite map_length; auto|]. intros j x Hj.
  assert (Hjl : (j < length X)%nat) by (apply nth_error_Some; congruence).
  rewrite nth_error_map. rewrite (nth_error_nth' _ 0) by lia. cbn [option_map]. do 2 f_equal.
  pose proof (batch_decomposes false ms pr X j L1 L2 Hjl) as D. cbn [column] in D. rewrite D.
  assert (Hx : nth j X (fun _ => []) = x) by (apply nth_error_nth; exact Hj). rewrite Hx. f_equal.
  unfold pr. cbn [p_factors]. unfold prior_predictions, prior_of. destruct linked as [l|].
  - set (g := fun v : option R => match v with Some x => x + offset | None => scale end).
    rewrite (nth_indep _ 0 (g None)) by (rewrite map_length, (Hl l eq_refl); auto).
    rewrite (map_nth g). reflexivity.
  - rewrite (nth_indep _ 0 scale) by (rewrite repeat_length; auto). apply nth_repeat.
Qed.
