(** Invariants of the training loop. *)
From Coq Require Import ZArith QArith List Bool Reals Lia Lra.
From Verif.Model Require Import Num LexBins Train.
From Verif.Spec Require Import TrainSpec.
Import ListNotations.
Local Open Scope R_scope.

Lemma Rleb_iff a b : Rleb a b = true <-> a <= b.
Proof. unfold Rleb. destruct (Rle_dec a b); intuition; discriminate. Qed.
Lemma Rltb_iff a b : Rltb a b = true <-> a < b.
Proof. unfold Rltb. destruct (Rlt_dec a b); intuition; discriminate. Qed.
Lemma Rltb_false a b : Rltb a b = false <-> b <= a.
Proof. unfold Rltb. destruct (Rlt_dec a b); intuition; try discriminate; lra. Qed.

Lemma map2_length {A B C} (f : A -> B -> C) a : forall b, length a = length b -> length (map2 f a b) = length a.
Proof. induction a; intros [|y b] H; cbn in *; auto; try discriminate. Qed.

Lemma nth_map2 {A} (f : R -> R -> A) (d : A) a : forall b j, length a = length b -> (j < length a)%nat ->
  nth j (map2 f a b) d = f (nth j a 0) (nth j b 0).
Proof. induction a; intros [|y b] [|j] H Hj; cbn in *; auto; try lia. apply IHa; lia. Qed.

Lemma nth_vadd a b j : length a = length b -> nth j (vadd a b) 0 = nth j a 0 + nth j b 0.
Proof.
  intro H. destruct (Nat.ltb_spec j (length a)).
  - unfold vadd. rewrite nth_map2; auto.
  - rewrite !nth_overflow; try lia; [lra|]. unfold vadd. rewrite map2_length; auto.
Qed.
Lemma nth_vsub a b j : length a = length b -> nth j (vsub a b) 0 = nth j a 0 - nth j b 0.
Proof.
  intro H. destruct (Nat.ltb_spec j (length a)).
  - unfold vsub. rewrite nth_map2; auto.
  - rewrite !nth_overflow; try lia; [lra|]. unfold vsub. rewrite map2_length; auto.
Qed.

Lemma nth_gather v lex j : (j < length lex)%nat -> nth j (gather v lex) 0 = nth (nth j lex 0%nat) v 0.
Proof.
  intro H. unfold gather. rewrite (nth_indep _ 0 (nth 0 v 0)) by (rewrite map_length; auto).
  apply (map_nth (fun k => nth k v 0)).
Qed.
Lemma gather_length v lex : length (gather v lex) = length lex.
Proof. apply map_length. Qed.
Lemma f_lex_length f : length (f_lex f) = length (f_rows f).
Proof. unfold f_lex. rewrite map_length. cbn. apply map_length. Qed.

Lemma contribution_vadd f a b j : length a = length b ->
  contribution f (vadd a b) j = contribution f a j + contribution f b j.
Proof. intro H. apply nth_vadd; auto. Qed.
Lemma contribution_vsub f a b j : length a = length b ->
  contribution f (vsub a b) j = contribution f a j - contribution f b j.
Proof. intro H. apply nth_vsub; auto. Qed.
Lemma contribution_zero f {A} (l : list A) j : contribution f (map (fun _ => 0) l) j = 0.
Proof.
  unfold contribution. generalize (nth j (f_lex f) 0%nat). induction l; intros [|n]; cbn; auto.
Qed.
Lemma contribution_zeros f n j : contribution f (zeros n) j = 0.
Proof. unfold contribution, zeros. generalize (nth j (f_lex f) 0%nat). induction n; intros [|k]; cbn; auto. Qed.

(** ** Shape invariant *)
Section Invariants.
Variable cfg : settings.
Variable features : list feature.
Variable calc : nat -> nat -> preds -> list R.
Variable smooth : nat -> nat -> preds -> list R -> nat -> option R.
Variable calib : nat -> list R -> list R.
Variable rate : nat -> nat -> R.
Variable loss : preds -> R.
Variable prior : preds.
Notation iter := (iteration cfg features calc smooth calib rate loss).
Notation hist := (reached cfg features calc smooth calib rate loss prior).
Notation fiter := (feature_iteration cfg calc smooth calib rate loss).
Notation fpass := (features_pass cfg calc smooth calib rate loss).

Definition shaped (f : feature) (s : fstate) : Prop :=
  length (s_factors s) = S (f_finite f) /\ length (s_old s) = S (f_finite f) /\
  (forall a, s_agg s = Some a -> length a = S (f_finite f)) /\
  (s_fitted s = true <-> s_agg s <> None).

Definition plen (N : nat) (p : preds) : Prop := length (p_factors p) = N /\ length (p_exponents p) = N.

Lemma plen_add N ext p c : plen N p -> length c = N -> plen N (add_preds ext p c).
Proof. intros [H1 H2] Hc. destruct ext; split; cbn; auto; unfold vadd; rewrite map2_length; lia. Qed.
Lemma plen_sub N ext p c : plen N p -> length c = N -> plen N (sub_preds ext p c).
Proof. intros [H1 H2] Hc. destruct ext; split; cbn; auto; unfold vsub; rewrite map2_length; lia. Qed.

Definition col (ext : bool) (p : preds) : list R := if ext then p_exponents p else p_factors p.

Lemma col_add N e ext p c j : plen N p -> length c = N ->
  nth j (col e (add_preds ext p c)) 0 = nth j (col e p) 0 + (if Bool.eqb ext e then nth j c 0 else 0).
Proof. intros [H1 H2] Hc. destruct ext, e; cbn; try lra; rewrite nth_vadd by lia; lra. Qed.
Lemma col_sub N e ext p c j : plen N p -> length c = N ->
  nth j (col e (sub_preds ext p c)) 0 = nth j (col e p) 0 - (if Bool.eqb ext e then nth j c 0 else 0).
Proof. intros [H1 H2] Hc. destruct ext, e; cbn; try lra; rewrite nth_vsub by lia; lra. Qed.

Variable N : nat.
Hypothesis Hw : well_shaped N features prior.
Hypothesis Ho : one_per_bin features calc calib.

Lemma new_factors_length i f s it p : nth_error features i = Some f ->
  length (fst (new_factors calc smooth calib rate i f s it p)) = S (f_finite f) /\
  length (snd (new_factors calc smooth calib rate i f s it p)) = S (f_finite f).
Proof.
  intro Hi. destruct Ho as [H1 H2]. cbn [new_factors fst snd]. split; [eauto|].
  rewrite H2 by (intro E; apply app_eq_nil in E; destruct E; discriminate).
  rewrite app_length, map_length, seq_length. cbn. lia.
Qed.

Lemma clip_absolute_length f a fs : length a = length fs -> length (clip_absolute f a fs) = length a.
Proof. intro H. unfold clip_absolute. destruct (factor_limits f). apply map2_length; auto. Qed.

Lemma limit_factors_length f s u fs p d k i0 fs' z : shaped f s ->
  length u = S (f_finite f) -> length fs = S (f_finite f) ->
  limit_factors cfg loss f s u fs p d k i0 = Ok (fs', z) -> length fs' = S (f_finite f).
Proof.
  intros (S1 & S2 & S3 & S4) Hu Hf. unfold limit_factors.
  destruct (c_log cfg && c_aggregate cfg).
  2:{ intro E. injection E as <- <-. auto. }
  assert (L1 : length (clip_step fs) = S (f_finite f)) by (unfold clip_step; rewrite map_length; auto).
  set (fs2 := if s_fitted s then match s_agg s with Some a => clip_absolute f a (clip_step fs) | None => clip_step fs end else clip_step fs).
  assert (L2 : length fs2 = S (f_finite f)).
  { unfold fs2. destruct (s_fitted s); auto. destruct (s_agg s) eqn:E; auto.
    rewrite clip_absolute_length; rewrite (S3 l); auto. }
  cbv zeta. fold fs2. destruct d; [|intro E; injection E as <- <-; auto].
  destruct (Nat.ltb 1 k).
  - destruct (is_diverged _ _); [|intro E; injection E as <- <-; auto].
    destruct (s_agg s) eqn:E; [|discriminate]. intro E'. injection E' as <- <-. rewrite map_length. auto.
  - destruct (is_diverged _ _); intro E; injection E as <- <-; auto. rewrite map2_length; lia.
Qed.

Lemma visit_shaped f s u fs p d k i0 s' : shaped f s ->
  length u = S (f_finite f) -> length fs = S (f_finite f) ->
  visit_factors cfg loss f s u fs p d k i0 = Ok s' ->
  shaped f s' /\ s_fitted s' = true /\ s_old s' = s_factors s /\
  (c_aggregate cfg = true -> forall j, contribution f (learned s') j = contribution f (learned s) j + contribution f (s_factors s') j) /\
  (c_aggregate cfg = false -> s_agg s' = Some (s_factors s')).
Proof.
  intros Hs Hu Hf. unfold visit_factors.
  destruct (limit_factors cfg loss f s u fs p d k i0) as [[fs' z]|e] eqn:E; [|discriminate].
  pose proof (limit_factors_length f s u fs p d k i0 fs' z Hs Hu Hf E) as L.
  intro E'. injection E' as <-. destruct Hs as (S1 & S2 & S3 & S4). cbn [s_fitted s_factors s_old s_agg].
  split; [|split; [|split; [|split]]]; auto.
  - split; [|split; [|split]]; cbn; auto.
    + intros a Ea. injection Ea as <-. destruct (s_fitted s && c_aggregate cfg); auto.
      destruct (s_agg s) eqn:Eg; auto. unfold vadd. rewrite map2_length; rewrite (S3 l); auto.
    + split; auto; discriminate.
  - intros Ha j. unfold learned at 1. cbn [s_agg]. rewrite Ha, andb_true_r.
    destruct (s_fitted s) eqn:Ef.
    + destruct (s_agg s) as [a|] eqn:Eg.
      * unfold learned. rewrite Eg. rewrite contribution_vadd; auto. rewrite (S3 a); auto.
      * exfalso. apply S4; auto.
    + assert (s_agg s = None). { destruct (s_agg s) eqn:Eg; auto. enough (false = true) by discriminate. apply S4. discriminate. }
      unfold learned. rewrite H. rewrite contribution_zero. lra.
  - intros Ha. rewrite Ha, andb_false_r. reflexivity.
Qed.

Lemma gather_len f v : In f features -> length (gather v (f_lex f)) = N.
Proof. intro Hf. rewrite gather_length, f_lex_length. destruct Hw as (_ & _ & H). apply H; auto. Qed.

Lemma nth_gather_f f v j : In f features -> (j < N)%nat -> nth j (gather v (f_lex f)) 0 = contribution f v j.
Proof. intros Hf Hj. apply nth_gather. rewrite f_lex_length. destruct Hw as (_ & _ & H). destruct (H f Hf) as [-> _]. auto. Qed.

(** The vector whose row values are contained in the predictions. *)
Definition stored (s : fstate) : list R := if c_aggregate cfg then learned s else s_factors s.

Lemma feature_iteration_ok i f s it p d k i0 s' p' : nth_error features i = Some f -> shaped f s -> plen N p ->
  fiter i f s it p d k i0 = Ok (s', p') ->
  shaped f s' /\ s_fitted s' = true /\ s_old s' = s_factors s /\ plen N p' /\
  (c_aggregate cfg = false -> s_agg s' = Some (s_factors s')) /\
  forall e j, (j < N)%nat -> nth j (col e p') 0 = nth j (col e p) 0 +
    (if Bool.eqb (f_ext f) e then contribution f (stored s') j - contribution f (stored s) j else 0).
Proof.
  intros Hi Hs Hp. pose proof (nth_error_In _ _ Hi) as Hin. unfold feature_iteration.
  set (p0 := if c_aggregate cfg then p else sub_preds (f_ext f) p (gather (s_factors s) (f_lex f))).
  cbv zeta. destruct (new_factors calc smooth calib rate i f s it p0) as [u fs] eqn:En.
  destruct (new_factors_length i f s it p0 Hi) as [Lu Lf]. rewrite En in Lu, Lf. cbn [fst snd] in Lu, Lf.
  destruct (visit_factors cfg loss f s u fs p0 d k i0) as [s1|e] eqn:Ev; [|discriminate].
  intro E. injection E as <- <-.
  destruct (visit_shaped f s u fs p0 d k i0 s1 Hs Lu Lf Ev) as (V1 & V2 & V3 & V4 & V5).
  assert (P0 : plen N p0).
  { unfold p0. destruct (c_aggregate cfg); auto. apply plen_sub; auto. apply gather_len; auto. }
  split; auto. split; auto. split; auto. split; [apply plen_add; auto; apply gather_len; auto|]. split; auto.
  intros e j Hj. rewrite (col_add N) by (auto; apply gather_len; auto). rewrite nth_gather_f by auto.
  unfold stored. unfold p0. destruct (c_aggregate cfg) eqn:Ha.
  - rewrite (V4 eq_refl). destruct (Bool.eqb (f_ext f) e); lra.
  - rewrite (col_sub N) by (auto; apply gather_len; auto). rewrite nth_gather_f by auto.
    destruct (Bool.eqb (f_ext f) e); lra.
Qed.

Definition skip_state (s : fstate) : fstate :=
  {| s_fitted := s_fitted s; s_factors := s_factors s; s_old := s_factors s; s_agg := s_agg s; s_zero := s_zero s |}.

Definition nonagg_ok (s : fstate) : Prop :=
  c_aggregate cfg = false -> (s_agg s = Some (s_factors s)) \/ (s_agg s = None /\ s_factors s = map (fun _ => 0) (s_factors s)).

Lemma features_pass_ok fl : forall i sl it p d k i0 sl' p',
  (forall m f, nth_error fl m = Some f -> nth_error features (i + m) = Some f) ->
  Forall2 shaped fl sl -> plen N p ->
  fpass i fl sl it p d k i0 = Ok (sl', p') ->
  Forall2 shaped fl sl' /\ plen N p' /\
  (Forall nonagg_ok sl -> Forall nonagg_ok sl') /\
  (forall m f s s', nth_error fl m = Some f -> nth_error sl m = Some s -> nth_error sl' m = Some s' ->
     if skipped cfg f it then s' = skip_state s else s_fitted s' = true) /\
  forall e j, (j < N)%nat ->
    nth j (col e p') 0 - contributions e fl (map stored sl') j =
    nth j (col e p) 0 - contributions e fl (map stored sl) j.
Proof.
  induction fl as [|f fl IH]; intros i sl it p d k i0 sl' p' Hf Hs Hp E.
  - inversion Hs; subst. cbn in E. injection E as <- <-. cbn. repeat split; auto; try apply Hp.
    intros [|m]; discriminate.
  - inversion Hs as [|f0 s fl0 sl0 Hs1 Hs2]; subst. cbn [features_pass] in E.
    set (here := if skipped cfg f it then _ else _) in E.
    destruct here as [[s' p1]|e] eqn:Eh; [|discriminate]. unfold here in Eh.
    destruct (fpass (S i) fl sl0 it p1 d k i0) as [[r q]|e] eqn:Er; [|discriminate].
    injection E as <- <-.
    assert (Hi : nth_error features i = Some f). { rewrite <- (Nat.add_0_r i). apply (Hf 0%nat). reflexivity. }
    assert (Hf' : forall m g, nth_error fl m = Some g -> nth_error features (S i + m) = Some g).
    { intros m g Hg. replace (S i + m)%nat with (i + S m)%nat by lia. apply (Hf (S m)). exact Hg. }
    destruct (skipped cfg f it) eqn:Esk.
    + injection Eh as <- <-. destruct (IH (S i) sl0 it p d k i0 r q Hf' Hs2 Hp Er) as (I1 & I2 & I3 & I4 & I5).
      split; [constructor; auto|]. 
      { destruct Hs1 as (A1 & A2 & A3 & A4). split; [|split; [|split]]; cbn; auto. }
      split; auto. split; [|split].
      * intro Hn. inversion Hn; subst. constructor; auto.
      * intros [|m] g t t' Hg Ht Ht'; cbn in Hg, Ht, Ht'; [|eapply I4; eauto].
        injection Hg as <-. injection Ht as <-. injection Ht' as <-. rewrite Esk. reflexivity.
      * intros e j Hj. cbn [contributions map]. specialize (I5 e j Hj).
        assert (Est : stored (skip_state s) = stored s) by reflexivity. fold (skip_state s). rewrite Est. lra.
    + destruct (feature_iteration_ok i f s it p d k i0 s' p1 Hi Hs1 Hp Eh) as (F1 & F2 & F3 & F4 & F5 & F6).
      destruct (IH (S i) sl0 it p1 d k i0 r q Hf' Hs2 F4 Er) as (I1 & I2 & I3 & I4 & I5).
      split; [constructor; auto|]. split; auto. split; [|split].
      * intro Hn. inversion Hn; subst. constructor; auto. intro Ha. left. auto.
      * intros [|m] g t t' Hg Ht Ht'; cbn in Hg, Ht, Ht'; [|eapply I4; eauto].
        injection Hg as <-. injection Ht as <-. injection Ht' as <-. rewrite Esk. auto.
      * intros e j Hj. cbn [contributions map]. specialize (I5 e j Hj). specialize (F6 e j Hj).
        destruct (Bool.eqb (f_ext f) e); lra.
Qed.

Lemma remove_preds_ok fl : forall sl p sl' p', incl fl features ->
  Forall2 shaped fl sl -> plen N p -> remove_preds fl sl p = Ok (sl', p') ->
  Forall2 shaped fl sl' /\ plen N p' /\
  (forall m s, nth_error sl m = Some s -> exists a, s_agg s = Some a /\
     nth_error sl' m = Some {| s_fitted := s_fitted s; s_factors := s_factors s; s_old := s_old s;
                               s_agg := Some (vsub a (s_factors s)); s_zero := s_zero s |}) /\
  forall e j, (j < N)%nat ->
    nth j (col e p') 0 = nth j (col e p) 0 - contributions e fl (map s_factors sl) j.
Proof.
  induction fl as [|f fl IH]; intros sl p sl' p' Hi Hs Hp E.
  - inversion Hs; subst. cbn in E. injection E as <- <-. cbn. repeat split; auto; try apply Hp; try (intros; lra).
    intros [|m]; discriminate.
  - inversion Hs as [|f0 s fl0 sl0 Hs1 Hs2]; subst. cbn [remove_preds] in E.
    destruct (s_agg s) as [a|] eqn:Ea; [|discriminate].
    assert (Hin : In f features) by (apply Hi; left; auto).
    assert (Hi' : incl fl features) by (intros g Hg; apply Hi; right; auto).
    destruct (remove_preds fl sl0 _) as [[r q]|e] eqn:Er; [|discriminate]. injection E as <- <-.
    assert (Hp1 : plen N (sub_preds (f_ext f) p (gather (s_factors s) (f_lex f)))) by (apply plen_sub; auto; apply gather_len; auto).
    destruct (IH sl0 _ r q Hi' Hs2 Hp1 Er) as (I1 & I2 & I3 & I4).
    split; [|split; auto; split].
    + constructor; auto. destruct Hs1 as (A1 & A2 & A3 & A4). split; [|split; [|split]]; cbn; auto.
      * intros b Eb. injection Eb as <-. unfold vsub. rewrite map2_length; rewrite (A3 a); auto.
      * split; [discriminate|]. intros _. apply A4. rewrite Ea. discriminate.
    + intros [|m] t Ht; cbn in Ht |- *; [|apply I3; auto]. injection Ht as <-. exists a. auto.
    + intros e j Hj. cbn [contributions map]. rewrite (I4 e j Hj). rewrite (col_sub N) by (auto; apply gather_len; auto).
      rewrite nth_gather_f by auto. destruct (Bool.eqb (f_ext f) e); lra.
Qed.

(** ** Book-keeping: predictions = prior + stored values *)
Definition booked (st : state) : Prop := forall e j, (j < N)%nat ->
  nth j (col e (t_preds st)) 0 = nth j (col e prior) 0 + contributions e features (map stored (t_feats st)) j.

Definition inv (st : state) : Prop :=
  Forall2 shaped features (t_feats st) /\ plen N (t_preds st).

Lemma contributions_sub e j : forall fl sl sl', Forall2 shaped fl sl ->
  (forall m s, nth_error sl m = Some s -> exists a, s_agg s = Some a /\
     nth_error sl' m = Some {| s_fitted := s_fitted s; s_factors := s_factors s; s_old := s_old s;
                               s_agg := Some (vsub a (s_factors s)); s_zero := s_zero s |}) ->
  length sl' = length sl ->
  contributions e fl (map learned sl') j =
  contributions e fl (map learned sl) j - contributions e fl (map s_factors sl) j.
Proof.
  intros fl sl sl' Hall. revert sl'. induction Hall as [|f s fl sl Hs Hr IH]; intros sl' H Hl.
  - destruct sl'; [cbn; lra|discriminate].
  - destruct sl' as [|s' sl']; [discriminate|].
    destruct (H 0%nat s eq_refl) as (a & Ea & Es'). cbn in Es'. injection Es' as ->.
    cbn [map contributions]. rewrite IH; [|intros m t Ht; exact (H (S m) t Ht)|cbn in Hl; lia].
    unfold learned at 1. cbn [s_agg]. destruct Hs as (A1 & A2 & A3 & A4).
    rewrite contribution_vsub by (rewrite (A3 a); auto).
    unfold learned at 2. rewrite Ea. destruct (Bool.eqb (f_ext f) e); lra.
Qed.

Lemma remove_preds_length fl : forall sl p sl' p', length fl = length sl ->
  remove_preds fl sl p = Ok (sl', p') -> length sl' = length sl.
Proof.
  induction fl as [|f fl IH]; intros [|s sl] p sl' p' L E; cbn in E, L; try discriminate.
  - injection E as <- <-. reflexivity.
  - destruct (s_agg s); [|discriminate]. destruct (remove_preds fl sl _) as [[r q]|] eqn:Er; [|discriminate].
    injection E as <- <-. cbn. f_equal. eapply IH; eauto.
Qed.

Lemma Forall2_len {A B} (P : A -> B -> Prop) a b : Forall2 P a b -> length a = length b.
Proof. induction 1; cbn; auto. Qed.

Lemma iteration_inv i0 st st' : inv st -> iter i0 st = Ok st' -> inv st'.
Proof.
  intros [H1 H2] E. unfold iteration in E.
  destruct (fpass 0 features (t_feats st) _ _ _ _ _) as [[sl p]|] eqn:Ep; [|discriminate].
  destruct (features_pass_ok features 0 (t_feats st) _ _ _ _ _ sl p (fun m f H => H) H1 H2 Ep) as (F1 & F2 & _).
  destruct (is_diverged i0 (loss p)) eqn:Ed; cbn [andb] in E.
  - destruct (Nat.leb 5 (S (t_diverging st))); [discriminate|].
    destruct (remove_preds features sl p) as [[sl' p']|] eqn:Er; [|discriminate]. injection E as <-.
    destruct (remove_preds_ok features sl p sl' p' (incl_refl _) F1 F2 Er) as (R1 & R2 & _). split; auto.
  - injection E as <-. split; auto.
Qed.

Lemma init_inv : inv (init_state features loss prior).
Proof.
  destruct Hw as (W1 & W2 & W3). split; [|split; auto].
  cbn. clear. induction features as [|f l IH]; constructor; auto.
  split; [|split; [|split]]; cbn; unfold zeros; rewrite ?repeat_length; auto; try discriminate.
  split; [discriminate|congruence].
Qed.

Lemma reached_inv st : hist st -> inv st.
Proof. induction 1; [apply init_inv|eapply iteration_inv; eauto]. Qed.

Lemma iteration_booked i0 st st' : inv st -> iter i0 st = Ok st' ->
  (c_aggregate cfg = true \/ t_isdiv st' = false) -> booked st -> booked st'.
Proof.
  intros [H1 H2] E Hor Hb. unfold iteration in E.
  destruct (fpass 0 features (t_feats st) _ _ _ _ _) as [[sl p]|] eqn:Ep; [|discriminate].
  destruct (features_pass_ok features 0 (t_feats st) _ _ _ _ _ sl p (fun m f H => H) H1 H2 Ep) as (F1 & F2 & F3 & F4 & F5).
  destruct (is_diverged i0 (loss p)) eqn:Ed; cbn [andb] in E.
  - destruct (Nat.leb 5 (S (t_diverging st))); [discriminate|].
    destruct (remove_preds features sl p) as [[sl' p']|] eqn:Er; [|discriminate]. injection E as <-.
    cbn in Hor. destruct Hor as [Ha|]; [|discriminate].
    destruct (remove_preds_ok features sl p sl' p' (incl_refl _) F1 F2 Er) as (R1 & R2 & R3 & R4).
    intros e j Hj. cbn [t_preds t_feats]. rewrite R4 by auto. specialize (F5 e j Hj). specialize (Hb e j Hj).
    unfold stored in *. rewrite Ha in *.
    change (fun s => learned s) with learned in *. change (map (fun s : fstate => learned s)) with (map learned) in *.
    rewrite (contributions_sub e j features sl sl' F1 R3); [lra|].
    eapply remove_preds_length; eauto. eapply Forall2_len; eauto.
  - injection E as <-. intros e j Hj. cbn [t_preds t_feats]. specialize (F5 e j Hj). specialize (Hb e j Hj). lra.
Qed.

Lemma init_booked : booked (init_state features loss prior).
Proof.
  intros e j Hj. cbn [init_state t_preds t_feats]. rewrite map_map.
  enough (contributions e features (map (fun f => stored (init_fstate f)) features) j = 0) by lra.
  clear. induction features as [|f l IH]; cbn [map contributions]; auto.
  rewrite IH. unfold stored. destruct (c_aggregate cfg).
  - unfold learned, init_fstate. cbn [s_agg s_factors]. rewrite contribution_zero. destruct (Bool.eqb _ _); lra.
  - unfold init_fstate. cbn [s_factors]. rewrite contribution_zeros. destruct (Bool.eqb _ _); lra.
Qed.

End Invariants.
