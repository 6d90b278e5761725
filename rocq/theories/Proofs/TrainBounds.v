(** Book-keeping over whole histories, roll-back and factor limits. *)
From Coq Require Import ZArith QArith List Bool Reals Lia Lra.
From Verif.Model Require Import Num LexBins Train.
From Verif.Spec Require Import TrainSpec.
From Verif.Proofs Require Import TrainFacts TrainHistory.
Import ListNotations.
Local Open Scope R_scope.

Lemma clip_bounds lo hi x : lo <= hi -> lo <= clip lo hi x <= hi.
Proof. intro H. unfold clip, Rmin, Rmax. repeat destruct (Rle_dec _ _); lra. Qed.

Lemma clip_small lo hi x b : lo <= 0 <= hi -> - b <= x <= b -> - b <= clip lo hi x <= b.
Proof. intros H1 H2. unfold clip, Rmin, Rmax. repeat destruct (Rle_dec _ _); lra. Qed.

Lemma ln_half : ln (1/2) = - ln 2.
Proof. unfold Rdiv. rewrite Rmult_1_l. apply ln_Rinv. lra. Qed.

Lemma ln_le_mono a b : 0 < a -> a <= b -> ln a <= ln b.
Proof. intros H1 [H2| ->]; [left; apply ln_increasing; auto|right; reflexivity]. Qed.

Lemma ln2_pos : 0 < ln 2.
Proof. rewrite <- ln_1. apply ln_increasing; lra. Qed.

Lemma limits_facts f : let (mn, mx) := factor_limits f in 0 < mn <= 1/2 /\ 2 <= mx.
Proof. unfold factor_limits. destruct (f_ext f), (Nat.eqb _ _); lra. Qed.

Section Bounds.
Variable cfg : settings.
Variable features : list feature.
Variable calc : nat -> nat -> preds -> list R.
Variable smooth : nat -> nat -> preds -> list R -> nat -> option R.
Variable calib : nat -> list R -> list R.
Variable rate : nat -> nat -> R.
Variable loss : preds -> R.
Variable prior : preds.
Notation iter := (iteration cfg features calc smooth calib rate loss).
Notation fpass := (features_pass cfg calc smooth calib rate loss).
Notation fiter := (feature_iteration cfg calc smooth calib rate loss).
Notation hist := (reached cfg features calc smooth calib rate loss prior).
Variable N : nat.
Hypothesis Hw : well_shaped N features prior.
Hypothesis Ho : one_per_bin features calc calib.

Lemma diverging_zero_prev i0 st st' : iter i0 st = Ok st' -> t_diverging st' = 0%nat ->
  t_diverging st = 0%nat /\ t_isdiv st' = false.
Proof.
  intros E D. destruct (iteration_ok _ _ _ _ _ _ _ _ _ _ E) as (sl & p & _ & _ & _ & _ & _ & _ & I6 & _).
  destruct (t_isdiv st'); [lia|split; auto; lia].
Qed.

Lemma reached_booked st : hist st -> (c_aggregate cfg = true \/ t_diverging st = 0%nat) -> booked cfg features prior N st.
Proof.
  induction 1 as [|st st' H IH C E]; intro Hor; [apply init_booked|].
  eapply iteration_booked; eauto.
  - apply (reached_inv cfg features calc smooth calib rate loss prior N Hw Ho). auto.
  - destruct Hor as [Ha|Hd]; auto. right. eapply diverging_zero_prev; eauto.
  - apply IH. destruct Hor as [Ha|Hd]; auto. right. eapply diverging_zero_prev; eauto.
Qed.

(** ** One feature *)
Lemma visit_learned f s u fs p d k i0 s' b : shaped f s -> length u = S (f_finite f) -> length fs = S (f_finite f) ->
  c_aggregate cfg = true -> visit_factors cfg loss f s u fs p d k i0 = Ok s' ->
  nth b (learned s') 0 = nth b (learned s) 0 + nth b (s_factors s') 0.
Proof.
  intros Hs Hu Hf Ha E. unfold visit_factors in E.
  destruct (limit_factors cfg loss f s u fs p d k i0) as [[fs' z]|e] eqn:El; [|discriminate].
  pose proof (limit_factors_length cfg loss f s u fs p d k i0 fs' z Hs Hu Hf El) as L.
  injection E as <-. destruct Hs as (S1 & S2 & S3 & S4). unfold learned at 1. cbn [s_agg s_factors].
  rewrite Ha, andb_true_r. destruct (s_fitted s) eqn:Ef.
  - destruct (s_agg s) as [a|] eqn:Ea.
    + unfold learned. rewrite Ea. rewrite nth_vadd; [lra|]. rewrite (S3 a eq_refl). auto.
    + exfalso. apply S4; auto.
  - unfold learned. destruct (s_agg s) eqn:Ea; [assert (X : false = true) by (apply S4; discriminate); discriminate|].
    assert (Hz : forall (l : list R) b, nth b (map (fun _ => 0) l) 0 = 0).
    { induction l; intros [|m]; cbn; auto. }
    rewrite Hz. lra.
Qed.

Lemma fiter_learned i f s it p d k i0 s' p' b : nth_error features i = Some f -> shaped f s -> c_aggregate cfg = true ->
  fiter i f s it p d k i0 = Ok (s', p') -> nth b (learned s') 0 = nth b (learned s) 0 + nth b (s_factors s') 0.
Proof.
  intros Hi Hs Ha E. unfold feature_iteration in E. cbv zeta in E.
  set (p0 := if c_aggregate cfg then p else _) in E.
  pose proof (new_factors_length features calc smooth calib rate Ho i f s it p0 Hi) as [L1 L2].
  destruct (new_factors calc smooth calib rate i f s it p0) as [u fs]. cbn [fst snd] in L1, L2.
  destruct (visit_factors _ _ _ _ _ _ _ _ _ _) as [s1|] eqn:Ev; [|discriminate]. injection E as <- <-.
  eapply (visit_learned f s u fs p0 d k i0 s1 b Hs L1 L2 Ha Ev).
Qed.

Lemma fpass_each fl : forall i sl it p d k i0 sl' p' m s', length fl = length sl ->
  fpass i fl sl it p d k i0 = Ok (sl', p') -> nth_error sl' m = Some s' ->
  exists f s, nth_error fl m = Some f /\ nth_error sl m = Some s /\
    if skipped cfg f it then s' = skip_state s
    else exists q q', fiter (i + m) f s it q d k i0 = Ok (s', q').
Proof.
  induction fl as [|f fl IH]; intros i [|s sl] it p d k i0 sl' p' m s' L E Hm; cbn [features_pass] in E; cbn in L; try discriminate.
  - injection E as <- <-. destruct m; discriminate.
  - cbv zeta in E. destruct (if skipped cfg f it then _ else _) as [[s1 p1]|] eqn:Eh; [|discriminate].
    destruct (fpass (S i) fl sl it p1 d k i0) as [[r q]|] eqn:Er; [|discriminate]. injection E as <- <-.
    destruct m as [|m].
    + cbn in Hm. injection Hm as <-. exists f, s. split; [reflexivity|]. split; [reflexivity|].
      rewrite Nat.add_0_r. destruct (skipped cfg f it); [injection Eh as <- <-; reflexivity|eauto].
    + cbn in Hm. destruct (IH (S i) sl it p1 d k i0 r q m s' ltac:(lia) Er Hm) as (f1 & s2 & A & B & C).
      exists f1, s2. split; auto. split; auto. replace (i + S m)%nat with (S i + m)%nat by lia. auto.
Qed.

Lemma Forall2_nth_error {A B} (P : A -> B -> Prop) l l' m a b : Forall2 P l l' ->
  nth_error l m = Some a -> nth_error l' m = Some b -> P a b.
Proof.
  intro H. revert m. induction H; intros [|m] Ha Hb; cbn in Ha, Hb; try discriminate; [congruence|eauto].
Qed.

(** ** Roll-back *)
Lemma rollback st st' : hist st -> c_aggregate cfg = true -> continues cfg st = true ->
  iter (loss prior) st = Ok st' -> t_isdiv st' = true ->
  (forall e j, (j < N)%nat -> nth j (column e (t_preds st')) 0 = nth j (column e (t_preds st)) 0) /\
  (forall m s s' b, nth_error (t_feats st) m = Some s -> nth_error (t_feats st') m = Some s' ->
     nth b (learned s') 0 = nth b (learned s) 0).
Proof.
  intros H Ha C E D.
  assert (H' : hist st') by (eapply reached_next; eauto).
  assert (Hl : forall m s s' b, nth_error (t_feats st) m = Some s -> nth_error (t_feats st') m = Some s' ->
     nth b (learned s') 0 = nth b (learned s) 0).
  { intros m s s' b Hs Hs'.
    destruct (iteration_ok _ _ _ _ _ _ _ _ _ _ E) as (sl & p & F & I1 & _ & _ & _ & _ & _ & _ & R).
    rewrite D in R.
    pose proof (reached_inv cfg features calc smooth calib rate loss prior N Hw Ho st H) as [V1 V2].
    pose proof (reached_length cfg features calc smooth calib rate loss prior st H) as L.
    pose proof (fpass_length _ _ _ _ _ _ _ _ _ _ _ _ _ _ _ _ (eq_sym L) F) as L'.
    destruct (features_pass_ok cfg features calc smooth calib rate loss prior N Hw Ho features 0 (t_feats st) _ _ _ _ _ sl p (fun m f H => H) V1 V2 F) as (F1 & F2 & _).
    destruct (remove_preds_ok features prior N Hw features sl p _ _ (incl_refl _) F1 F2 R) as (_ & _ & R3 & _).
    destruct (nth_error sl m) as [s1|] eqn:E1.
    2:{ apply nth_error_None in E1. assert (m < length (t_feats st))%nat by (apply nth_error_Some; congruence). lia. }
    destruct (R3 m s1 E1) as (a & A1 & A2). rewrite Hs' in A2. injection A2 as ->.
    destruct (fpass_each _ _ _ _ _ _ _ _ _ _ m s1 (eq_sym L) F E1) as (f & s0 & G1 & G2 & G3).
    rewrite Hs in G2. injection G2 as <-.
    pose proof (Forall2_nth_error _ _ _ m f s V1 G1 Hs) as Sh.
    pose proof (Forall2_nth_error _ _ _ m f s1 F1 G1 E1) as Sh1.
    destruct (skipped cfg f (t_iter st)) eqn:Sk.
    - exfalso. subst s1. cbn in A1. unfold skipped in Sk.
      apply andb_prop in Sk. destruct Sk as [Sk Sk3]. apply andb_prop in Sk. destruct Sk as [Sk1 Sk2].
      apply Nat.ltb_lt in Sk2. apply negb_true_iff in Sk3.
      destruct (hier_untouched cfg features calc smooth calib rate loss prior st m f s H Sk1 ltac:(lia) G1 Sk3 Hs) as (X & _).
      congruence.
    - destruct G3 as (q & q' & G3). pose proof (fiter_learned _ f s _ _ _ _ _ s1 q' b G1 Sh Ha G3) as X.
      unfold learned at 1. cbn [s_agg]. destruct Sh1 as (S1 & S2 & S3 & S4).
      rewrite nth_vsub by (rewrite (S3 a A1); auto). unfold learned at 1 in X. rewrite A1 in X. lra. }
  split; auto.
  intros e j Hj.
  pose proof (reached_booked st H (or_introl Ha) e j Hj) as B.
  pose proof (reached_booked st' H' (or_introl Ha) e j Hj) as B'.
  unfold booked, col in B, B'. unfold column. rewrite B, B'. f_equal.
  unfold stored. rewrite Ha.
  pose proof (reached_length cfg features calc smooth calib rate loss prior st H) as L1.
  pose proof (reached_length cfg features calc smooth calib rate loss prior st' H') as L2.
  clear -Hl L1 L2. revert Hl L1 L2. generalize (t_feats st) (t_feats st').
  induction features as [|f fl IH]; intros [|s sl] [|s' sl'] Hl L1 L2; cbn in L1, L2; try discriminate; auto.
  cbn [map contributions]. f_equal.
  - destruct (Bool.eqb _ _); auto. unfold contribution. apply (Hl 0%nat s s'); reflexivity.
  - apply IH; auto. intros m t t' b Ht Ht'. apply (Hl (S m)); auto.
Qed.

(** ** Limits *)
Definition in_limits (f : feature) (a : list R) : Prop :=
  forall k, (k < length a)%nat -> ln (fst (factor_limits f)) <= nth k a 0 <= ln (snd (factor_limits f)).

Lemma clip_step_bounds fs k : (k < length fs)%nat -> - ln 2 <= nth k (clip_step fs) 0 <= ln 2.
Proof.
  intro H. unfold clip_step. rewrite (nth_indep _ 0 (clip (ln (1/2)) (ln 2) 0)) by (rewrite map_length; auto).
  rewrite map_nth, ln_half. apply clip_bounds. pose proof ln2_pos. lra.
Qed.

Lemma step_in_limits f x : - ln 2 <= x <= ln 2 -> ln (fst (factor_limits f)) <= x <= ln (snd (factor_limits f)).
Proof.
  intro H. pose proof (limits_facts f) as L. destruct (factor_limits f) as [mn mx]. cbn.
  rewrite <- ln_half in H. pose proof (ln_le_mono mn (1/2) ltac:(lra) ltac:(lra)). pose proof (ln_le_mono 2 mx ltac:(lra) ltac:(lra)). lra.
Qed.

Lemma nth_clip_absolute f a fs k : length a = length fs -> (k < length a)%nat ->
  nth k (clip_absolute f a fs) 0 =
  clip (ln (fst (factor_limits f)) - nth k a 0) (ln (snd (factor_limits f)) - nth k a 0) (nth k fs 0).
Proof.
  intros L H. unfold clip_absolute. destruct (factor_limits f) as [mn mx]. cbn [fst snd].
  rewrite (nth_map2 (fun a x => clip (ln mn - a) (ln mx - a) x)); auto.
Qed.

Lemma limits_ordered f : ln (fst (factor_limits f)) <= ln (snd (factor_limits f)).
Proof. pose proof (limits_facts f) as L. destruct (factor_limits f) as [mn mx]. cbn. apply ln_le_mono; lra. Qed.

(** Learned factors after a visit. *)
Lemma visit_limits f s u fs p d k i0 s' : shaped f s -> length u = S (f_finite f) -> length fs = S (f_finite f) ->
  c_aggregate cfg = true -> c_log cfg = true -> (d = true -> k <> 1%nat /\ (1 <= k)%nat) ->
  visit_factors cfg loss f s u fs p d k i0 = Ok s' -> in_limits f (learned s').
Proof.
  intros Hs Hu Hf Ha Hl Hd E. unfold visit_factors, limit_factors in E. rewrite Ha, Hl in E. cbn [andb] in E. cbv zeta in E.
  destruct Hs as (S1 & S2 & S3 & S4).
  set (fs2 := if s_fitted s then match s_agg s with Some a => clip_absolute f a (clip_step fs) | None => clip_step fs end else clip_step fs) in E.
  assert (L1 : length (clip_step fs) = S (f_finite f)) by (unfold clip_step; rewrite map_length; auto).
  assert (A : in_limits f (if s_fitted s && true then match s_agg s with Some a => vadd a fs2 | None => fs2 end else fs2)).
  { intros b Hb. rewrite andb_true_r in *. unfold fs2 in *. destruct (s_fitted s) eqn:Ef.
    - destruct (s_agg s) as [a|] eqn:Ea.
      + pose proof (S3 a eq_refl) as La.
        assert (Lc : length (clip_absolute f a (clip_step fs)) = length a) by (apply clip_absolute_length; lia).
        unfold vadd in Hb. rewrite map2_length in Hb by lia.
        rewrite nth_vadd by lia. rewrite nth_clip_absolute by lia.
        pose proof (limits_ordered f).
        pose proof (clip_bounds (ln (fst (factor_limits f)) - nth b a 0) (ln (snd (factor_limits f)) - nth b a 0) (nth b (clip_step fs) 0) ltac:(lra)). lra.
      + exfalso. apply S4; auto.
    - apply step_in_limits. apply clip_step_bounds. lia. }
  destruct d.
  - destruct (Hd eq_refl) as [Hk1 Hk2]. rewrite (proj2 (Nat.ltb_lt 1 k)) in E by lia.
    destruct (is_diverged _ _).
    + destruct (s_agg s) as [a|] eqn:Ea; [|discriminate]. injection E as <-. unfold learned. cbn [s_agg].
      rewrite (proj2 S4) by discriminate. cbn [andb]. intros b Hb.
      pose proof (S3 a eq_refl) as La. unfold vadd in Hb. rewrite map2_length in Hb by (rewrite map_length; auto).
      rewrite nth_vadd by (rewrite map_length; auto). apply step_in_limits.
      assert (X : nth b (map Ropp a) 0 = - nth b a 0) by (rewrite <- Ropp_0 at 1; apply map_nth).
      rewrite X. pose proof ln2_pos. lra.
    + injection E as <-. unfold learned. cbn [s_agg]. exact A.
  - injection E as <-. unfold learned. cbn [s_agg]. exact A.
Qed.

(** Change of the learned factors in a visit. *)
Lemma visit_step f s u fs p k i0 s' b : shaped f s -> length u = S (f_finite f) -> length fs = S (f_finite f) ->
  c_aggregate cfg = true -> c_log cfg = true -> (forall a, s_agg s = Some a -> in_limits f a) ->
  visit_factors cfg loss f s u fs p false k i0 = Ok s' -> (b < S (f_finite f))%nat ->
  - ln 2 <= nth b (learned s') 0 - nth b (learned s) 0 <= ln 2.
Proof.
  intros Hs Hu Hf Ha Hl Hd E Hb.
  rewrite (visit_learned f s u fs p false k i0 s' b Hs Hu Hf Ha E).
  unfold visit_factors, limit_factors in E. rewrite Ha, Hl in E. cbn [andb] in E. cbv zeta in E.
  destruct Hs as (S1 & S2 & S3 & S4).
  assert (L1 : length (clip_step fs) = S (f_finite f)) by (unfold clip_step; rewrite map_length; auto).
  pose proof (clip_step_bounds fs b ltac:(lia)) as B.
  injection E as <-. cbn [s_factors]. destruct (s_fitted s) eqn:Ef; [|lra].
  destruct (s_agg s) as [a|] eqn:Ea; [|lra].
  pose proof (S3 a eq_refl) as La. rewrite nth_clip_absolute by lia.
  pose proof (Hd a eq_refl b ltac:(lia)) as I.
  pose proof (clip_small (ln (fst (factor_limits f)) - nth b a 0) (ln (snd (factor_limits f)) - nth b a 0) (nth b (clip_step fs) 0) (ln 2) ltac:(lra) ltac:(lra)). lra.
Qed.

Lemma limits_iff f a : in_limits f a <-> (forall k, (k < length a)%nat -> factor_within f (exp (nth k a 0))).
Proof.
  assert (X : forall x, (ln (fst (factor_limits f)) <= x <= ln (snd (factor_limits f))) <-> factor_within f (exp x)).
  { intro x. pose proof (limits_facts f) as L. unfold factor_within.
    assert (Y : forall mn mx, 0 < mn <= mx -> (ln mn <= x <= ln mx <-> mn <= exp x <= mx)).
    { intros mn mx Hm. split; intros [H1 H2]; split.
      - apply Rnot_lt_le. intro K. apply (ln_increasing _ _ (exp_pos x)) in K. rewrite ln_exp in K. lra.
      - apply Rnot_lt_le. intro K. apply (ln_increasing mx _ ltac:(lra)) in K. rewrite ln_exp in K. lra.
      - rewrite <- (ln_exp x). apply ln_le_mono; lra.
      - rewrite <- (ln_exp x). apply ln_le_mono; [apply exp_pos|lra]. }
    unfold factor_limits in *. destruct (f_ext f); destruct (Nat.eqb_spec (f_dim f) 1) as [Hd|Hd]; cbn [fst snd];
      (rewrite Y by lra; split;
        [intro H; split; [|split; [|split]]; intros; congruence || exact H | intros (H1 & H2 & H3 & H4); auto]). }
  split; intros H k Hk; apply X; auto.
Qed.

(** Limits after an accepted iteration. *)
Lemma iteration_limits st st' : hist st -> continues cfg st = true -> iter (loss prior) st = Ok st' ->
  c_aggregate cfg = true -> c_log cfg = true -> t_isdiv st' = false ->
  (t_isdiv st = true -> t_diverging st <> 1%nat) ->
  forall m f s a, nth_error features m = Some f -> nth_error (t_feats st') m = Some s -> s_agg s = Some a -> in_limits f a.
Proof.
  intros H C E Ha Hl D Hd m f s' a Hf Hs' Haa.
  destruct (iteration_ok _ _ _ _ _ _ _ _ _ _ E) as (sl & p & F & I1 & _ & _ & _ & _ & _ & _ & R).
  rewrite D in R. injection R as R1 R2. subst.
  pose proof (reached_inv cfg features calc smooth calib rate loss prior N Hw Ho st H) as [V1 V2].
  pose proof (reached_length cfg features calc smooth calib rate loss prior st H) as L.
  destruct (fpass_each _ _ _ _ _ _ _ _ _ _ m s' (eq_sym L) F Hs') as (f1 & s & G1 & G2 & G3).
  rewrite Hf in G1. injection G1 as <-.
  pose proof (Forall2_nth_error _ _ _ m f s V1 Hf G2) as Sh.
  destruct (skipped cfg f (t_iter st)) eqn:Sk.
  - exfalso. subst s'. cbn in Haa. unfold skipped in Sk.
    apply andb_prop in Sk. destruct Sk as [Sk Sk3]. apply andb_prop in Sk. destruct Sk as [Sk1 Sk2].
    apply Nat.ltb_lt in Sk2. apply negb_true_iff in Sk3.
    destruct (hier_untouched cfg features calc smooth calib rate loss prior st m f s H Sk1 ltac:(lia) Hf Sk3 G2) as (X & _).
    congruence.
  - destruct G3 as (q & q' & G3). unfold feature_iteration in G3. cbv zeta in G3.
    set (p0 := if c_aggregate cfg then q else _) in G3.
    pose proof (new_factors_length features calc smooth calib rate Ho m f s (t_iter st) p0 Hf) as [L1 L2].
    cbn [Nat.add] in G3.
    destruct (new_factors calc smooth calib rate m f s (t_iter st) p0) as [u fs]. cbn [fst snd] in L1, L2.
    destruct (visit_factors _ _ _ _ _ _ _ _ _ _) as [s1|] eqn:Ev; [|discriminate]. injection G3 as <- _.
    pose proof (visit_limits f s u fs p0 (t_isdiv st) (t_diverging st) (loss prior) s1 Sh L1 L2 Ha Hl) as X.
    unfold learned in X. rewrite Haa in X. apply X; auto.
    intro Dv. split; auto. apply (reached_isdiv_iter cfg features calc smooth calib rate loss prior st); auto.
Qed.

Lemma reached_limits st : hist st -> c_aggregate cfg = true -> c_log cfg = true -> t_diverging st = 0%nat ->
  forall m f s a, nth_error features m = Some f -> nth_error (t_feats st) m = Some s -> s_agg s = Some a -> in_limits f a.
Proof.
  intros H Ha Hl. destruct H as [|st st' H C E]; intros D m f s a Hf Hs Haa.
  - cbn in Hs. rewrite nth_error_map, Hf in Hs. injection Hs as <-. discriminate.
  - destruct (diverging_zero_prev _ _ _ E D) as [D1 D2].
    eapply (iteration_limits st st'); eauto. intros Dv. rewrite D1. discriminate.
Qed.

Lemma iteration_step st st' : hist st -> continues cfg st = true -> iter (loss prior) st = Ok st' ->
  c_aggregate cfg = true -> c_log cfg = true -> t_diverging st' = 0%nat ->
  forall m f s s' b, nth_error features m = Some f -> nth_error (t_feats st) m = Some s -> nth_error (t_feats st') m = Some s' ->
    (b < S (f_finite f))%nat -> - ln 2 <= nth b (learned s') 0 - nth b (learned s) 0 <= ln 2.
Proof.
  intros H C E Ha Hl D m f s s' b Hf Hs Hs' Hb.
  destruct (diverging_zero_prev _ _ _ E D) as [D1 D2].
  assert (D3 : t_isdiv st = false).
  { destruct (t_isdiv st) eqn:X; auto. destruct (reached_isdiv_iter cfg features calc smooth calib rate loss prior st H X). lia. }
  destruct (iteration_ok _ _ _ _ _ _ _ _ _ _ E) as (sl & p & F & I1 & _ & _ & _ & _ & _ & _ & R).
  rewrite D2 in R. injection R as R1 R2. subst.
  pose proof (reached_inv cfg features calc smooth calib rate loss prior N Hw Ho st H) as [V1 V2].
  pose proof (reached_length cfg features calc smooth calib rate loss prior st H) as L.
  destruct (fpass_each _ _ _ _ _ _ _ _ _ _ m s' (eq_sym L) F Hs') as (f1 & s1 & G1 & G2 & G3).
  rewrite Hf in G1. injection G1 as <-. rewrite Hs in G2. injection G2 as <-.
  pose proof (Forall2_nth_error _ _ _ m f s V1 Hf Hs) as Sh.
  destruct (skipped cfg f (t_iter st)) eqn:Sk.
  - subst s'. unfold learned, skip_state. cbn [s_agg s_factors]. pose proof ln2_pos. destruct (s_agg s); lra.
  - destruct G3 as (q & q' & G3). unfold feature_iteration in G3. cbv zeta in G3.
    set (p0 := if c_aggregate cfg then q else _) in G3.
    pose proof (new_factors_length features calc smooth calib rate Ho m f s (t_iter st) p0 Hf) as [L1 L2].
    cbn [Nat.add] in G3.
    destruct (new_factors calc smooth calib rate m f s (t_iter st) p0) as [u fs]. cbn [fst snd] in L1, L2.
    destruct (visit_factors _ _ _ _ _ _ _ _ _ _) as [s2|] eqn:Ev; [|discriminate]. injection G3 as <- _.
    rewrite D3 in Ev.
    eapply (visit_step f s u fs p0); eauto.
    intros a Haa. eapply (reached_limits st); eauto.
Qed.

End Bounds.
