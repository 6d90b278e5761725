(** Training keeps monotone contributions. *)
From Coq Require Import ZArith QArith Qround List Bool Reals Lia Lra.
From Verif.Model Require Import Num LexBins Train Predict.
From Verif.Spec Require Import LexSpec TrainSpec PredictSpec IsotonicSpec.
From Verif.Proofs Require Import NumFacts FnumOrder LexFacts TrainFacts TrainHistory TrainBounds PredictFacts NeutralFacts.
Import ListNotations.
Local Open Scope R_scope.

Lemma clip_mono lo hi x y : x <= y -> clip lo hi x <= clip lo hi y.
Proof. intro H. unfold clip. apply Rle_min_compat_r, Rle_max_compat_r, H. Qed.
Lemma clip_offset lo hi a x : a + clip (lo - a) (hi - a) x = clip lo hi (a + x).
Proof. unfold clip, Rmin, Rmax. repeat destruct (Rle_dec _ _); lra. Qed.

Lemma follows_zeros b n {A} (l : list A) : follows_to b n (map (fun _ => 0) l).
Proof. intros i j _. assert (Z : forall k, nth k (map (fun _ : A => 0) l) 0 = 0) by (induction l; intros [|k]; cbn; auto). rewrite !Z. destruct b; lra. Qed.

Section Monotone.
Variable cfg : settings.
Variable features : list feature.
Variable calc : nat -> nat -> preds -> list R.
Variable smooth : nat -> nat -> preds -> list R -> nat -> option R.
Variable calib : nat -> list R -> list R.
Variable rate : nat -> nat -> R.
Variable loss : preds -> R.
Variable prior : preds.
Notation iter := (iteration cfg features calc smooth calib rate loss).
Notation hist := (reached cfg features calc smooth calib rate loss prior).
Notation fit := (fit_main cfg features calc smooth calib rate loss).
Variable N : nat.
Hypothesis Hw : well_shaped N features prior.
Hypothesis Ho : one_per_bin features calc calib.
Variable b : bool.
Variable n : nat.

Lemma visit_follows f s u fs p d k i0 s' : shaped f s -> length u = S (f_finite f) -> length fs = S (f_finite f) ->
  (n <= S (f_finite f))%nat -> follows_to b n fs -> follows_to b n (learned s) ->
  (c_log cfg && c_aggregate cfg = false \/ d = false) ->
  visit_factors cfg loss f s u fs p d k i0 = Ok s' ->
  follows_to b n (learned s') /\
  (c_log cfg && c_aggregate cfg = false -> exists a, s_agg s' = Some a /\ follows_to b n (vsub a (s_factors s'))).
Proof.
  intros Hs Hu Hf Hn Ff Fl Hor E. unfold visit_factors in E.
  destruct (limit_factors cfg loss f s u fs p d k i0) as [[fs' z]|] eqn:El; [|discriminate].
  pose proof (limit_factors_length cfg loss f s u fs p d k i0 fs' z Hs Hu Hf El) as L.
  destruct Hs as (S1 & S2 & S3 & S4). injection E as <-.
  assert (Cs : forall i j, (i <= j < n)%nat -> if b then nth i (clip_step fs) 0 <= nth j (clip_step fs) 0 else nth j (clip_step fs) 0 <= nth i (clip_step fs) 0).
  { intros i j Hij. unfold clip_step. rewrite !(nth_indep (map _ fs) 0 (clip (ln (1/2)) (ln 2) 0)) by (rewrite map_length; lia).
    rewrite !map_nth. specialize (Ff i j Hij). destruct b; now apply clip_mono. }
  unfold limit_factors in El. destruct (c_log cfg && c_aggregate cfg) eqn:Ela.
  - destruct Hor as [|D]; [discriminate|]. rewrite D in El. cbv zeta in El. injection El as E1 E2.
    split; [|discriminate]. apply andb_prop in Ela. destruct Ela as [_ Ea]. unfold learned. cbn [s_agg]. rewrite Ea, andb_true_r.
    destruct (s_fitted s) eqn:Ef.
    + destruct (s_agg s) as [a|] eqn:Eg.
      * pose proof (S3 a eq_refl) as La. unfold learned in Fl. rewrite Eg in Fl.
        intros i j Hij. assert (Lc : length (clip_step fs) = S (f_finite f)) by (unfold clip_step; rewrite map_length; auto).
        rewrite !nth_vadd by lia. rewrite <- E1.
        rewrite !nth_clip_absolute by lia. rewrite !clip_offset.
        specialize (Fl i j Hij). specialize (Cs i j Hij). destruct b; apply clip_mono; lra.
      * exfalso. apply S4; auto.
    + rewrite <- E1. exact Cs.
  - injection El as E1 E2. rewrite <- E1 in *.
    assert (Fv : follows_to b n (vsub fs fs)).
    { intros i j Hij. rewrite !nth_vsub by lia. destruct b; lra. }
    unfold learned. cbn [s_agg s_factors]. destruct (s_fitted s && c_aggregate cfg) eqn:Efa.
    + apply andb_prop in Efa. destruct Efa as [Ef Ea].
      destruct (s_agg s) as [a|] eqn:Eg; [|split; eauto].
      pose proof (S3 a eq_refl) as La. unfold learned in Fl. rewrite Eg in Fl. split.
      * intros i j Hij. rewrite !nth_vadd by lia. specialize (Fl i j Hij). specialize (Ff i j Hij). destruct b; lra.
      * intros _. eexists. split; [reflexivity|]. intros i j Hij.
        assert (length (vadd a fs) = length fs) by (unfold vadd; rewrite map2_length; lia).
        rewrite !nth_vsub by lia. rewrite !nth_vadd by lia. specialize (Fl i j Hij). destruct b; lra.
    + split; eauto.
Qed.

Variable m : nat.
Variable f : feature.
Hypothesis Hm : nth_error features m = Some f.
Hypothesis Hn : (n <= S (f_finite f))%nat.
Hypothesis Hnew : forall s it p, follows_to b n (snd (new_factors calc smooth calib rate m f s it p)).

Lemma reached_follows st : hist st -> (c_log cfg && c_aggregate cfg = false \/ t_diverging st = 0%nat) ->
  forall s, nth_error (t_feats st) m = Some s -> follows_to b n (learned s).
Proof.
  induction 1 as [|st st' H IH C E]; intros Hor s' Hs'.
  - cbn in Hs'. rewrite nth_error_map, Hm in Hs'. injection Hs' as <-.
    unfold learned. cbn [s_agg init_fstate]. apply follows_zeros.
  - assert (Hor' : c_log cfg && c_aggregate cfg = false \/ t_diverging st = 0%nat).
    { destruct Hor as [|D]; auto. right. eapply diverging_zero_prev; eauto. }
    assert (Hdiv : c_log cfg && c_aggregate cfg = false \/ t_isdiv st = false).
    { destruct Hor' as [|D]; auto. right. destruct (t_isdiv st) eqn:X; auto.
      destruct (reached_isdiv_iter cfg features calc smooth calib rate loss prior st H X). lia. }
    destruct (iteration_ok _ _ _ _ _ _ _ _ _ _ E) as (sl & p & F & _ & _ & _ & _ & _ & _ & _ & Rm).
    pose proof (reached_inv cfg features calc smooth calib rate loss prior N Hw Ho st H) as [V1 V2].
    pose proof (reached_length cfg features calc smooth calib rate loss prior st H) as L.
    assert (X : forall s1, nth_error sl m = Some s1 -> follows_to b n (learned s1) /\
      (c_log cfg && c_aggregate cfg = false -> forall a, s_agg s1 = Some a -> follows_to b n (vsub a (s_factors s1)))).
    { intros s1 Hs1.
      destruct (fpass_each _ _ _ _ _ _ _ _ _ _ _ _ _ _ _ _ m s1 (eq_sym L) F Hs1) as (f1 & s & G1 & G2 & G3).
      rewrite Hm in G1. injection G1 as <-.
      pose proof (Forall2_nth_error _ _ _ m f s V1 Hm G2) as Sh.
      pose proof (IH Hor' s G2) as Ns.
      destruct (skipped cfg f (t_iter st)) eqn:Sk.
      - subst s1. split; [exact Ns|]. cbn [s_agg s_factors]. intros _ a Ea. exfalso. unfold skipped in Sk.
        apply andb_prop in Sk. destruct Sk as [Sk Sk3]. apply andb_prop in Sk. destruct Sk as [Sk1 Sk2].
        apply Nat.ltb_lt in Sk2. apply negb_true_iff in Sk3.
        destruct (hier_untouched cfg features calc smooth calib rate loss prior st m f s H Sk1 ltac:(lia) Hm Sk3 G2) as (Y & _).
        cbn in Ea, Y. rewrite Y in Ea. discriminate.
      - destruct G3 as (q & q' & G3). unfold feature_iteration in G3. cbv zeta in G3.
        set (p0 := if c_aggregate cfg then q else _) in G3. cbn [Nat.add] in G3.
        pose proof (new_factors_length features calc smooth calib rate Ho m f s (t_iter st) p0 Hm) as [L1 L2].
        pose proof (Hnew s (t_iter st) p0) as Zp.
        destruct (new_factors calc smooth calib rate m f s (t_iter st) p0) as [u fs]. cbn [fst snd] in L1, L2, Zp.
        destruct (visit_factors _ _ _ _ _ _ _ _ _ _) as [s2|] eqn:Ev; [|discriminate]. injection G3 as <- _.
        destruct (visit_follows f s u fs p0 _ _ _ s2 Sh L1 L2 Hn Zp Ns Hdiv Ev) as [W1 W2]. split; [exact W1|].
        intros Ha a Ea. destruct (W2 Ha) as (a' & Ea' & W3). rewrite Ea in Ea'. injection Ea' as ->. exact W3. }
    destruct (t_isdiv st') eqn:D.
    + destruct (features_pass_ok cfg features calc smooth calib rate loss prior N Hw Ho features 0 (t_feats st) _ _ _ _ _ sl p (fun m f H => H) V1 V2 F) as (F1 & F2 & _).
      destruct (remove_preds_ok features prior N Hw features sl p _ _ (fun x H => H) F1 F2 Rm) as (R1 & R2 & R3 & _).
      assert (Hex : exists s1, nth_error sl m = Some s1).
      { destruct (nth_error sl m) eqn:En; eauto. exfalso. apply nth_error_None in En.
        pose proof (Forall2_len _ _ _ F1). assert (m < length features)%nat by (apply nth_error_Some; congruence). lia. }
      destruct Hex as (s1 & Hs1). destruct (R3 m s1 Hs1) as (a & Ea & Es). rewrite Hs' in Es. injection Es as ->.
      destruct (X s1 Hs1) as [X1 X2]. unfold learned. cbn [s_agg].
      destruct Hor as [Ha|D0]; [exact (X2 Ha a Ea)|].
      exfalso. assert (Hst' : hist st') by (eapply reached_next; eassumption).
      destruct (reached_isdiv_iter cfg features calc smooth calib rate loss prior st' Hst' D). lia.
    + injection Rm as -> ->. apply X. exact Hs'.
Qed.
End Monotone.
