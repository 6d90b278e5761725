(** Training of the location model leaves the weighted mean prediction alone. *)
From Coq Require Import List Bool Reals Lia Lra.
From Verif.Model Require Import Num LexBins Train Predict Link Estimators.
From Verif.Spec Require Import TrainSpec PredictSpec LinkSpec EstimatorSpec.
From Verif.Proofs Require Import TrainFacts TrainExamples PredictFacts ImportanceFacts LinkFacts EstimatorFacts LocationFacts.
Import ListNotations.
Local Open Scope R_scope.

Definition rowsum (lex : list nat) (w v : list R) : R := sumR (map2 (fun b wj => wj * nth b v 0) lex w).

Lemma rowsum_ext lex w v v' : (forall b, nth b v 0 = nth b v' 0) -> rowsum lex w v = rowsum lex w v'.
Proof.
  intro H. unfold rowsum. f_equal. revert w. induction lex as [|b lex IH]; intros [|x w]; cbn; auto. rewrite H, IH. reflexivity.
Qed.
Lemma rowsum_add lex w a b : length a = length b -> rowsum lex w (vadd a b) = rowsum lex w a + rowsum lex w b.
Proof.
  intro H. unfold rowsum. revert w. induction lex as [|k lex IH]; intros [|x w]; cbn [map2 sumR]; try lra.
  rewrite IH, nth_vadd by auto. ring.
Qed.
Lemma rowsum_sub lex w a b : length a = length b -> rowsum lex w (vsub a b) = rowsum lex w a - rowsum lex w b.
Proof.
  intro H. unfold rowsum. revert w. induction lex as [|k lex IH]; intros [|x w]; cbn [map2 sumR]; try lra.
  rewrite IH, nth_vsub by auto. ring.
Qed.
Lemma rowsum_zeros lex w n : rowsum lex w (zeros n) = 0.
Proof.
  unfold rowsum. revert w. induction lex as [|k lex IH]; intros [|x w]; cbn [map2 sumR]; try lra.
  rewrite IH. unfold zeros. rewrite nth_repeat. ring.
Qed.
Lemma rowsum_gather lex w v : sumR (map2 Rmult w (gather v lex)) = rowsum lex w v.
Proof.
  unfold rowsum, gather. revert w. induction lex as [|k lex IH]; intros [|x w]; cbn [map map2 sumR]; auto. rewrite IH. reflexivity.
Qed.
Lemma dot_add w a b : length a = length b -> length w = length a ->
  sumR (map2 Rmult w (vadd a b)) = sumR (map2 Rmult w a) + sumR (map2 Rmult w b).
Proof.
  revert a b. induction w as [|x w IH]; intros [|y a] [|z b] H1 H2; cbn in *; try discriminate; [ring|].
  unfold vadd in IH. rewrite IH by auto. ring.
Qed.
Lemma dot_sub w a b : length a = length b -> length w = length a ->
  sumR (map2 Rmult w (vsub a b)) = sumR (map2 Rmult w a) - sumR (map2 Rmult w b).
Proof.
  revert a b. induction w as [|x w IH]; intros [|y a] [|z b] H1 H2; cbn in *; try discriminate; [ring|].
  unfold vsub in IH. rewrite IH by auto. ring.
Qed.

Lemma Forall2_cons_iff {A B} (P : A -> B -> Prop) x y l m : Forall2 P (x :: l) (y :: m) -> P x y /\ Forall2 P l m.
Proof. intro H. inversion H; auto. Qed.

Section Centred.
Variable cfg : settings.
Variable features : list feature.
Variable calc : nat -> nat -> preds -> list R.
Variable smooth : nat -> nat -> preds -> list R -> nat -> option R.
Variable calib : nat -> list R -> list R.
Variable rate : nat -> nat -> R.
Variable loss : preds -> R.
Variable w : list R.
Variable N : nat.
Hypothesis Hlog : c_log cfg = false.
Hypothesis Hw : length w = N.
Hypothesis Hrows : forall f, In f features -> length (f_rows f) = N /\ f_ext f = false.
Hypothesis Hcalib : forall i f v, nth_error features i = Some f -> length v = S (f_finite f) ->
  length (calib i v) = S (f_finite f) /\ rowsum (f_lex f) w (calib i v) = 0.

Notation fiter := (feature_iteration cfg calc smooth calib rate loss).
Notation fpass := (features_pass cfg calc smooth calib rate loss).

Definition cgood (f : feature) (s : fstate) : Prop :=
  length (s_factors s) = S (f_finite f) /\ rowsum (f_lex f) w (s_factors s) = 0 /\
  forall a, s_agg s = Some a -> length a = S (f_finite f) /\ rowsum (f_lex f) w a = 0.
Definition total (p : preds) : R := sumR (map2 Rmult w (p_factors p)).

Lemma glen f v : In f features -> length (gather v (f_lex f)) = N.
Proof. intro H. rewrite gather_length, f_lex_length. apply Hrows; auto. Qed.

Lemma total_add f v p : In f features -> length (p_factors p) = N -> rowsum (f_lex f) w v = 0 ->
  length (p_factors (add_preds (f_ext f) p (gather v (f_lex f)))) = N /\
  total (add_preds (f_ext f) p (gather v (f_lex f))) = total p.
Proof.
  intros Hf Hp H0. destruct (Hrows f Hf) as [_ ->]. cbn [add_preds p_factors]. pose proof (glen f v Hf) as G. split.
  - unfold vadd. rewrite map2_length; congruence.
  - unfold total. cbn [p_factors]. rewrite dot_add, rowsum_gather, H0 by congruence. ring.
Qed.
Lemma total_sub f v p : In f features -> length (p_factors p) = N -> rowsum (f_lex f) w v = 0 ->
  length (p_factors (sub_preds (f_ext f) p (gather v (f_lex f)))) = N /\
  total (sub_preds (f_ext f) p (gather v (f_lex f))) = total p.
Proof.
  intros Hf Hp H0. destruct (Hrows f Hf) as [_ ->]. cbn [sub_preds p_factors]. pose proof (glen f v Hf) as G. split.
  - unfold vsub. rewrite map2_length; congruence.
  - unfold total. cbn [p_factors]. rewrite dot_sub, rowsum_gather, H0 by congruence. ring.
Qed.

Lemma fiter_ok i f s it p d k i0 s' p' : nth_error features i = Some f -> cgood f s -> length (p_factors p) = N ->
  fiter i f s it p d k i0 = Ok (s', p') -> cgood f s' /\ length (p_factors p') = N /\ total p' = total p.
Proof.
  intros Hi (G1 & G2 & G3) Hp. pose proof (nth_error_In _ _ Hi) as Hf. unfold feature_iteration.
  set (p0 := if c_aggregate cfg then p else _).
  assert (P0 : length (p_factors p0) = N /\ total p0 = total p).
  { unfold p0. destruct (c_aggregate cfg); [auto|]. apply total_sub; auto. }
  destruct P0 as [L0 T0].
  destruct (new_factors calc smooth calib rate i f s it p0) as [u fs] eqn:En.
  assert (Hfs : length fs = S (f_finite f) /\ rowsum (f_lex f) w fs = 0).
  { unfold new_factors in En. injection En as <- <-. apply Hcalib; auto.
    rewrite app_length, map_length, seq_length. cbn. lia. }
  destruct Hfs as [F1 F2].
  unfold visit_factors, limit_factors. rewrite Hlog. cbn [andb]. intro E. injection E as <- <-. cbn [s_factors].
  split; [|destruct (total_add f fs p0 Hf L0 F2) as [A B]; split; [auto|congruence]].
  split; [exact F1|]. split; [exact F2|]. cbn [s_agg]. intros a Ea. injection Ea as <-.
  destruct (s_fitted s && c_aggregate cfg); [|auto]. destruct (s_agg s) as [a|]; [|auto].
  destruct (G3 a eq_refl) as [A1 A2]. split; [unfold vadd; rewrite map2_length; congruence|].
  rewrite rowsum_add by congruence. lra.
Qed.

Lemma fpass_ok fl : forall i sl it p d k i0 sl' p',
  (forall m f, nth_error fl m = Some f -> nth_error features (i + m) = Some f) ->
  Forall2 cgood fl sl -> length (p_factors p) = N ->
  fpass i fl sl it p d k i0 = Ok (sl', p') -> Forall2 cgood fl sl' /\ length (p_factors p') = N /\ total p' = total p.
Proof.
  induction fl as [|f fl IH]; intros i sl it p d k i0 sl' p' Hf HG Hp E.
  - destruct sl; [|inversion HG]. cbn in E. injection E as <- <-. auto.
  - destruct sl as [|s sl0]; [inversion HG|]. apply Forall2_cons_iff in HG. destruct HG as [Gs Gl]. cbn [features_pass] in E.
    assert (Hi : nth_error features i = Some f) by (rewrite <- (Nat.add_0_r i); apply Hf; reflexivity).
    set (here := if skipped cfg f it then _ else _) in E.
    destruct here as [[s' p1]|] eqn:Eh; [|discriminate].
    assert (Hs : cgood f s' /\ length (p_factors p1) = N /\ total p1 = total p).
    { unfold here in Eh. destruct (skipped cfg f it); [|eapply fiter_ok; eauto].
      injection Eh as <- <-. split; [exact Gs|auto]. }
    destruct Hs as (S1 & S2 & S3).
    destruct (fpass (S i) fl sl0 it p1 d k i0) as [[r q]|] eqn:Er; [|discriminate]. injection E as <- <-.
    destruct (IH (S i) sl0 it p1 d k i0 r q) as (A & B & C); auto.
    { intros m g Hm. replace (S i + m)%nat with (i + S m)%nat by lia. apply Hf. exact Hm. }
    split; [constructor; auto|]. split; [auto|congruence].
Qed.

Lemma removed_ok fl : forall sl p sl' p', (forall f, In f fl -> In f features) ->
  Forall2 cgood fl sl -> length (p_factors p) = N ->
  remove_preds fl sl p = Ok (sl', p') -> Forall2 cgood fl sl' /\ length (p_factors p') = N /\ total p' = total p.
Proof.
  induction fl as [|f fl IH]; intros sl p sl' p' Hin HG Hp E.
  - destruct sl; [|inversion HG]. cbn in E. injection E as <- <-. auto.
  - destruct sl as [|s sl0]; [inversion HG|]. apply Forall2_cons_iff in HG. destruct HG as [Gs Gl]. cbn [remove_preds] in E.
    destruct (s_agg s) as [a|] eqn:Ea; [|discriminate].
    destruct (remove_preds fl sl0 _) as [[r q]|] eqn:Er; [|discriminate]. injection E as <- <-.
    destruct Gs as (G1 & G2 & G3). destruct (G3 a Ea) as [A1 A2].
    destruct (total_sub f (s_factors s) p (Hin f (or_introl eq_refl)) Hp G2) as [B1 B2].
    apply IH in Er; auto; [|intros; apply Hin; right; auto]. destruct Er as (C1 & C2 & C3).
    split; [|split; [auto|congruence]]. constructor; [|exact C1]. split; [exact G1|]. split; [exact G2|].
    cbn [s_agg]. intros a' E'. injection E' as <-. split; [unfold vsub; rewrite map2_length; congruence|].
    rewrite rowsum_sub by congruence. lra.
Qed.

Definition cinv (T : R) (st : state) : Prop :=
  Forall2 cgood features (t_feats st) /\ length (p_factors (t_preds st)) = N /\ total (t_preds st) = T.

Lemma citer T i0 st st' : cinv T st -> iteration cfg features calc smooth calib rate loss i0 st = Ok st' -> cinv T st'.
Proof.
  intros (I1 & I2 & I3) E. unfold iteration in E.
  destruct (features_pass _ _ _ _ _ _ 0 features (t_feats st) _ _ _ _ i0) as [[sl p]|] eqn:Ep; [|discriminate].
  apply fpass_ok in Ep; auto. destruct Ep as (P1 & P2 & P3).
  cbv zeta in E. destruct (_ && _); [discriminate|].
  destruct (is_diverged i0 (loss p)).
  - destruct (remove_preds features sl p) as [[sl' p']|] eqn:Er; [|discriminate]. injection E as <-.
    apply removed_ok in Er; auto. destruct Er as (R1 & R2 & R3). split; [exact R1|]. split; [exact R2|]. cbn. congruence.
  - injection E as <-. split; [exact P1|]. split; [exact P2|]. cbn. congruence.
Qed.

Lemma cloop T i0 fuel : forall st st', cinv T st ->
  loop cfg features calc smooth calib rate loss fuel i0 st = Some (Ok st') -> cinv T st'.
Proof.
  induction fuel as [|fuel IH]; intros st st' HI E; cbn [loop] in E.
  - destruct (continues cfg st); [discriminate|]. unfold finish in E.
    destruct (forallb _ _); [|discriminate]. destruct (_ && _); [discriminate|]. congruence.
  - destruct (continues cfg st).
    + destruct (iteration _ _ _ _ _ _ _ i0 st) as [st1|] eqn:Ei; [|discriminate]. eapply IH; [|exact E]. eapply citer; eauto.
    + unfold finish in E. destruct (forallb _ _); [|discriminate]. destruct (_ && _); [discriminate|]. congruence.
Qed.

Lemma cinit p : length (p_factors p) = N -> cinv (total p) (init_state features loss p).
Proof.
  intro Hp. split; [|split; [exact Hp|reflexivity]]. cbn [t_feats init_state].
  assert (G : forall fl, Forall2 cgood fl (map init_fstate fl)).
  { induction fl as [|f fl IH]; constructor; auto. split; [|split].
    - cbn [init_fstate s_factors]. unfold zeros. apply repeat_length.
    - apply rowsum_zeros.
    - cbn. discriminate. }
  apply G.
Qed.
End Centred.

Lemma location_mean_kept cfg features calc smooth rate loss prior N w :
  well_shaped N features prior -> length w = N -> c_log cfg = false ->
  (forall f, In f features -> f_ext f = false /\ (1 <= f_dim f)%nat /\
     sumR (map2 (fun b wj => if f_mnl f && Nat.eqb b (f_finite f) then 0 else wj) (f_lex f) w) <> 0) ->
  forall fuel st, fit_main cfg features calc smooth (location_calibration features w) rate loss fuel prior = Some (Ok st) ->
  sumR (map2 Rmult w (p_factors (t_preds st))) = sumR (map2 Rmult w (p_factors prior)) /\
  forall m f s, nth_error features m = Some f -> nth_error (t_feats st) m = Some s ->
    sumR (map (fun j => nth j w 0 * contribution f (learned s) j) (seq 0 N)) = 0.
Proof.
  intros (W1 & W2 & W3) Hw Hlog Hf fuel st E.
  assert (Hcal : forall i f v, nth_error features i = Some f -> length v = S (f_finite f) ->
    length (location_calibration features w i v) = S (f_finite f) /\ rowsum (f_lex f) w (location_calibration features w i v) = 0).
  { intros i f v Hi Hv. unfold location_calibration. rewrite Hi. pose proof (nth_error_In _ _ Hi) as Hin.
    destruct (Hf f Hin) as (F1 & F2 & F3). destruct (W3 f Hin) as [L1 L2].
    assert (PR : per_row (f_lex f) w) by (unfold per_row; rewrite f_lex_length; congruence).
    destruct (calibrate_zero (f_mnl f) (f_lex f) w (f_finite f) v) as (C1 & C2 & _); auto.
    - intros b Hb. pose proof (f_lex_bound f b F2 L2 Hb). lia.
    - destruct (f_mnl f); cbn [andb] in F3; [exact F3|].
      intro Z. apply F3. rewrite <- Z. f_equal. clear - PR. unfold per_row in PR. revert PR. generalize (f_lex f). clear.
      induction w as [|x w IH]; intros [|b l] H; cbn in *; try discriminate; auto. f_equal. auto. }
  destruct (cloop cfg features calc smooth (location_calibration features w) rate loss w N Hlog Hw
    (fun f Hin => conj (proj1 (W3 f Hin)) (proj1 (Hf f Hin))) Hcal (total w prior) (loss prior) fuel
    (init_state features loss prior) st) as (I1 & I2 & I3); auto.
  { apply cinit; auto. }
  split; [exact I3|]. intros m f s Hm Hs.
  assert (G : cgood w f s).
  { clear - I1 Hm Hs. revert m Hm Hs. induction I1; intros [|m] H1 H2; cbn in *; try discriminate; [congruence|eauto]. }
  assert (E0 : rowsum (f_lex f) w (learned s) = 0).
  { unfold learned. destruct (s_agg s) as [a|] eqn:Ea; [apply G; auto|].
    rewrite (rowsum_ext _ _ _ (zeros (length (s_factors s)))); [apply rowsum_zeros|]. intro b. unfold zeros.
    rewrite nth_repeat. generalize (s_factors s). intro l. revert b. induction l; intros [|b]; cbn; auto. }
  transitivity (rowsum (f_lex f) w (learned s)); [|exact E0]. pose proof (nth_error_In _ _ Hm) as Hin. destruct (W3 f Hin) as [L1 L2].
  unfold rowsum, contribution. assert (PR : length (f_lex f) = N) by (rewrite f_lex_length; auto).
  revert PR. generalize (f_lex f) as lex. rewrite <- Hw. clear. generalize (learned s) as v. clear.
  induction w as [|x w IH]; intros v [|b lex] H; cbn in *; try discriminate; auto. rewrite <- (IH v lex) by auto.
  rewrite <- seq_shift, map_map. reflexivity.
Qed.
