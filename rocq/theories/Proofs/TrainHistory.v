(** Termination, stop criteria, hierarchical schedule and divergence. *)
From Coq Require Import ZArith QArith List Bool Reals Lia Lra.
From Verif.Model Require Import Num LexBins Train.
From Verif.Spec Require Import TrainSpec.
From Verif.Proofs Require Import TrainFacts.
Import ListNotations.
Local Open Scope R_scope.

Section Hist.
Variable cfg : settings.
Variable features : list feature.
Variable calc : nat -> nat -> preds -> list R.
Variable smooth : nat -> nat -> preds -> list R -> nat -> option R.
Variable calib : nat -> list R -> list R.
Variable rate : nat -> nat -> R.
Variable loss : preds -> R.
Notation iter := (iteration cfg features calc smooth calib rate loss).
Notation fpass := (features_pass cfg calc smooth calib rate loss).
Notation fiter := (feature_iteration cfg calc smooth calib rate loss).
Notation runloop := (loop cfg features calc smooth calib rate loss).

Lemma iteration_ok i0 st st' : iter i0 st = Ok st' ->
  exists sl p, fpass 0 features (t_feats st) (t_iter st) (t_preds st) (t_isdiv st) (t_diverging st) i0 = Ok (sl, p) /\
    t_iter st' = S (t_iter st) /\ t_loss st' = loss p /\
    t_losschange st' = loss_change (t_loss st) (loss p) /\
    t_delta st' = factors_deviation sl /\
    t_isdiv st' = is_diverged i0 (loss p) /\
    t_diverging st' = (if t_isdiv st' then S (t_diverging st) else t_diverging st) /\
    (t_isdiv st' = true -> (S (t_diverging st) < 5)%nat) /\
    (if t_isdiv st' then remove_preds features sl p else Ok (sl, p)) = Ok (t_feats st', t_preds st').
Proof.
  unfold iteration. destruct (fpass _ _ _ _ _ _ _ _) as [[sl p]|] eqn:E; [|discriminate].
  intro H. exists sl, p. split; auto. destruct (is_diverged i0 (loss p)) eqn:Ed; cbn [andb] in H.
  - destruct (Nat.leb 5 (S (t_diverging st))) eqn:E5; [discriminate|].
    destruct (remove_preds features sl p) as [[sl' p']|] eqn:Er; [|discriminate].
    injection H as <-. cbn. apply Nat.leb_gt in E5. repeat split; auto.
  - injection H as <-. cbn. repeat split; auto. discriminate.
Qed.

(** ** Termination *)
Definition K : nat := Nat.max (c_maxiter cfg) (if c_hier cfg then S (c_thier cfg) else 0).

Definition term_inv (st : state) : Prop :=
  (t_diverging st <= 4)%nat /\ (t_isdiv st = true -> (1 <= t_diverging st)%nat) /\
  ((t_iter st <= K)%nat \/ (t_iter st + (if t_isdiv st then 1 else 0) <= K + t_diverging st)%nat).

Lemma stop_late st : (K <= t_iter st)%nat -> check_stop cfg st = true.
Proof.
  intro H. unfold check_stop, stop_iterations, veto_hierarchical. unfold K in H.
  rewrite (proj2 (Nat.leb_le _ _)) by lia. cbn [orb].
  destruct (c_hier cfg); [|rewrite andb_false_r; reflexivity].
  rewrite (proj2 (Nat.leb_gt _ _)) by lia. reflexivity.
Qed.

Lemma term_step i0 st st' : term_inv st -> continues cfg st = true -> iter i0 st = Ok st' -> term_inv st'.
Proof.
  intros (T1 & T2 & T3) C E. destruct (iteration_ok _ _ _ E) as (sl & p & _ & I1 & _ & _ & _ & _ & I6 & I7 & _).
  unfold term_inv. rewrite I1, I6.
  assert (Hc : (t_iter st < K)%nat \/ (t_isdiv st = true)).
  { destruct (Nat.ltb_spec (t_iter st) K); auto. right. unfold continues in C.
    rewrite stop_late in C by auto. exact C. }
  destruct (t_isdiv st') eqn:D; [specialize (I7 eq_refl)|]; (split; [lia|]); (split; [intros; lia || discriminate|]).
  - destruct Hc as [Hc|Hc]; [lia|]. rewrite Hc in T3. specialize (T2 Hc). lia.
  - destruct Hc as [Hc|Hc]; [lia|]. rewrite Hc in T3. specialize (T2 Hc). lia.
Qed.

Lemma term_bound st : term_inv st -> (t_iter st <= K + 4)%nat.
Proof. intros (T1 & T2 & T3). destruct (t_isdiv st); lia. Qed.

Lemma loop_terminates i0 : forall fuel st, term_inv st -> (K + 4 <= fuel + t_iter st)%nat ->
  exists r, (forall fuel', (fuel <= fuel')%nat -> runloop fuel' i0 st = Some r) /\
    forall st', r = Ok st' -> (t_iter st' <= K + 4)%nat.
Proof.
  induction fuel as [|fuel IH]; intros st T F.
  - assert (Hn : continues cfg st = false).
    { pose proof (term_bound st T) as B. unfold continues. rewrite stop_late by lia. cbn.
      destruct T as (T1 & T2 & T3). destruct (t_isdiv st); auto. lia. }
    exists (finish i0 st). split.
    + intros fuel' _. destruct fuel'; cbn [loop]; rewrite Hn; reflexivity.
    + intros st' E. unfold finish in E. destruct (forallb _ _); [|discriminate].
      destruct (_ && _); [discriminate|]. injection E as <-. apply term_bound; auto.
  - destruct (continues cfg st) eqn:Hc.
    + destruct (iter i0 st) as [st1|e] eqn:E.
      * pose proof (term_step _ _ _ T Hc E) as T1.
        destruct (iteration_ok _ _ _ E) as (_ & _ & _ & I1 & _).
        destruct (IH st1 T1 ltac:(lia)) as (r & R1 & R2).
        exists r. split; auto. intros fuel' Hf. destruct fuel' as [|fuel']; [lia|]. cbn [loop]. rewrite Hc, E.
        apply R1. lia.
      * exists (Raise e). split; [|discriminate]. intros fuel' Hf. destruct fuel' as [|fuel']; [lia|].
        cbn [loop]. rewrite Hc, E. reflexivity.
    + exists (finish i0 st). split.
      * intros fuel' _. destruct fuel'; cbn [loop]; rewrite Hc; reflexivity.
      * intros st' E. unfold finish in E. destruct (forallb _ _); [|discriminate].
        destruct (_ && _); [discriminate|]. injection E as <-. apply term_bound; auto.
Qed.

Variable prior : preds.
Notation start := (init_state features loss prior).
Notation hist := (reached cfg features calc smooth calib rate loss prior).
Notation fit := (fit_main cfg features calc smooth calib rate loss).

Lemma init_term : term_inv start.
Proof. unfold term_inv. cbn. split; [lia|]. split; [discriminate|lia]. Qed.

Lemma fit_terminates :
  exists r, (forall fuel, (iteration_bound cfg <= fuel)%nat -> fit fuel prior = Some r) /\
    forall st, r = Ok st -> (t_iter st <= iteration_bound cfg)%nat.
Proof.
  destruct (loop_terminates (loss prior) (iteration_bound cfg) start init_term) as (r & R1 & R2).
  { unfold iteration_bound, K. cbn. lia. }
  exists r. split; auto.
Qed.

(** ** A returned state is a reached state where the loop stops. *)
Lemma loop_reached fuel st r : hist st -> runloop fuel (loss prior) st = Some (Ok r) ->
  hist r /\ continues cfg r = false /\ finish (loss prior) r = Ok r.
Proof.
  revert st. induction fuel as [|fuel IH]; intros st H E; cbn [loop] in E.
  - destruct (continues cfg st) eqn:C; [discriminate|]. injection E as E.
    assert (r = st). { unfold finish in E. destruct (forallb _ _); [|discriminate]. destruct (_ && _); [discriminate|]. congruence. }
    subst. auto.
  - destruct (continues cfg st) eqn:C.
    + destruct (iter (loss prior) st) as [st1|e] eqn:Ei; [|discriminate].
      apply (IH st1); auto. eapply reached_next; eauto.
    + injection E as E.
      assert (r = st). { unfold finish in E. destruct (forallb _ _); [|discriminate]. destruct (_ && _); [discriminate|]. congruence. }
      subst. auto.
Qed.

Lemma fit_reached fuel r : fit fuel prior = Some (Ok r) ->
  hist r /\ continues cfg r = false /\ finish (loss prior) r = Ok r.
Proof. apply loop_reached. constructor. Qed.

(** An error is raised by an iteration from a reached state or at the end. *)
Lemma loop_raised fuel st e : hist st -> runloop fuel (loss prior) st = Some (Raise e) ->
  exists st', hist st' /\ ((continues cfg st' = true /\ iter (loss prior) st' = Raise e) \/
                           (continues cfg st' = false /\ finish (loss prior) st' = Raise e)).
Proof.
  revert st. induction fuel as [|fuel IH]; intros st H E; cbn [loop] in E.
  - destruct (continues cfg st) eqn:C; [discriminate|]. injection E as E. exists st. auto.
  - destruct (continues cfg st) eqn:C.
    + destruct (iter (loss prior) st) as [st1|e'] eqn:Ei.
      * apply (IH st1); auto. eapply reached_next; eauto.
      * injection E as ->. exists st. auto.
    + injection E as E. exists st. auto.
Qed.

Lemma fit_raised fuel e : fit fuel prior = Some (Raise e) ->
  exists st', hist st' /\ ((continues cfg st' = true /\ iter (loss prior) st' = Raise e) \/
                           (continues cfg st' = false /\ finish (loss prior) st' = Raise e)).
Proof. apply loop_raised. constructor. Qed.

(** ** Stop reasons *)
Lemma not_continues st : continues cfg st = false ->
  ((c_maxiter cfg <= t_iter st)%nat \/ t_delta st <= c_minfactor cfg \/ Rabs (t_losschange st) <= c_minloss cfg) /\
  t_isdiv st = false /\ (c_hier cfg = true -> (c_thier cfg < t_iter st)%nat).
Proof.
  unfold continues. intro H. apply orb_false_iff in H. destruct H as [H1 H2].
  apply negb_false_iff in H1. unfold check_stop in H1. apply andb_prop in H1. destruct H1 as [H1 H3].
  split; [|split; auto].
  - apply orb_prop in H1. destruct H1 as [H1|H1]; [apply orb_prop in H1; destruct H1 as [H1|H1]|].
    + left. apply Nat.leb_le. exact H1.
    + right; left. apply Rleb_iff. exact H1.
    + right; right. apply Rleb_iff. exact H1.
  - intro Hh. apply negb_true_iff in H3. unfold veto_hierarchical in H3. rewrite Hh, andb_true_r in H3.
    apply Nat.leb_gt in H3. exact H3.
Qed.

Lemma loss_not_diverging st : hist st -> t_isdiv st = false ->
  t_loss st <= loss prior * 2 \/ t_loss st = loss prior.
Proof.
  intros H D. destruct H as [|st st' H C E]; [right; reflexivity|].
  left. destruct (iteration_ok _ _ _ E) as (sl & p & _ & _ & I2 & _ & _ & I5 & _).
  rewrite I5 in D. unfold is_diverged in D. rewrite I2. apply Rltb_false. exact D.
Qed.

Lemma stop_reason fuel st : fit fuel prior = Some (Ok st) ->
  ((c_maxiter cfg <= t_iter st)%nat \/ t_delta st <= c_minfactor cfg \/ Rabs (t_losschange st) <= c_minloss cfg) /\
  (t_loss st <= loss prior * 2 \/ t_loss st = loss prior) /\
  (c_hier cfg = true -> (c_thier cfg < t_iter st)%nat).
Proof.
  intro E. destruct (fit_reached fuel st E) as (R & C & _).
  destruct (not_continues st C) as (N1 & N2 & N3). split; auto. split; auto. apply loss_not_diverging; auto.
Qed.

Lemma reached_iter_max st : hist st -> c_hier cfg = false -> t_diverging st = 0%nat -> (t_iter st <= c_maxiter cfg)%nat.
Proof.
  intros H Hh. induction H as [|st st' H IH C E]; intro D; [cbn; lia|].
  destruct (iteration_ok _ _ _ E) as (sl & p & _ & I1 & _ & _ & _ & _ & I6 & _).
  destruct (t_isdiv st') eqn:Ed; [lia|].
  rewrite I6 in D.
  assert (Dst : t_isdiv st = false).
  { clear -H D. destruct H as [|st0 st H C E]; auto.
    destruct (iteration_ok _ _ _ E) as (sl & p & _ & _ & _ & _ & _ & _ & I6 & _).
    destruct (t_isdiv st); auto. lia. }
  unfold continues in C. rewrite Dst, orb_false_r in C. apply negb_true_iff in C.
  unfold check_stop, veto_hierarchical in C. rewrite Hh, andb_false_r, andb_true_r in C.
  apply orb_false_iff in C. destruct C as [C _]. apply orb_false_iff in C. destruct C as [C _].
  apply Nat.leb_gt in C. lia.
Qed.

(** ** Fitted flags *)
Definition has_agg (s : fstate) : Prop := s_agg s <> None.

Lemma visit_has_agg f s u fs p d k i0 s' :
  visit_factors cfg loss f s u fs p d k i0 = Ok s' -> has_agg s'.
Proof. unfold visit_factors. destruct (limit_factors _ _ _ _ _ _ _ _ _ _) as [[? ?]|]; [|discriminate]. intro E. injection E as <-. discriminate. Qed.

Lemma fiter_has_agg i f s it p d k i0 s' p' : fiter i f s it p d k i0 = Ok (s', p') -> has_agg s'.
Proof.
  unfold feature_iteration. cbv zeta. destruct (new_factors _ _ _ _ _ _ _ _ _) as [u fs].
  destruct (visit_factors _ _ _ _ _ _ _ _ _ _) as [s1|] eqn:E; [|discriminate].
  intro H. injection H as <- <-. eapply visit_has_agg; eauto.
Qed.

Lemma fpass_length fl : forall i sl it p d k i0 sl' p', length fl = length sl ->
  fpass i fl sl it p d k i0 = Ok (sl', p') -> length sl' = length sl.
Proof.
  induction fl as [|f fl IH]; intros i [|s sl] it p d k i0 sl' p' L E; cbn [features_pass] in E; cbn in L; try discriminate.
  - injection E as <- <-. reflexivity.
  - cbv zeta in E. destruct (if skipped cfg f it then _ else _) as [[s' p1]|]; [|discriminate].
    destruct (fpass (S i) fl sl it p1 d k i0) as [[r q]|] eqn:Er; [|discriminate]. injection E as <- <-. cbn. f_equal.
    eapply IH; eauto.
Qed.

Lemma fpass_no_skip fl : forall i sl it p d k i0 sl' p', length fl = length sl ->
  (forall f, In f fl -> skipped cfg f it = false) ->
  fpass i fl sl it p d k i0 = Ok (sl', p') -> Forall has_agg sl'.
Proof.
  induction fl as [|f fl IH]; intros i [|s sl] it p d k i0 sl' p' L Hs E; cbn [features_pass] in E; cbn in L; try discriminate.
  - injection E as <- <-. constructor.
  - cbv zeta in E. rewrite (Hs f (or_introl eq_refl)) in E.
    destruct (fiter i f s it p d k i0) as [[s' p1]|] eqn:Ef; [|discriminate].
    destruct (fpass (S i) fl sl it p1 d k i0) as [[r q]|] eqn:Er; [|discriminate]. injection E as <- <-.
    constructor; [eapply fiter_has_agg; eauto|]. eapply IH; eauto. intros g Hg. apply Hs. right; auto.
Qed.

Lemma fpass_keeps_agg fl : forall i sl it p d k i0 sl' p', length fl = length sl ->
  Forall has_agg sl -> fpass i fl sl it p d k i0 = Ok (sl', p') -> Forall has_agg sl'.
Proof.
  induction fl as [|f fl IH]; intros i [|s sl] it p d k i0 sl' p' L Hs E; cbn [features_pass] in E; cbn in L; try discriminate.
  - injection E as <- <-. constructor.
  - inversion Hs; subst. cbv zeta in E. destruct (skipped cfg f it).
    + destruct (fpass (S i) fl sl it p d k i0) as [[r q]|] eqn:Er; [|discriminate]. injection E as <- <-.
      constructor; [auto|]. eapply IH; eauto.
    + destruct (fiter i f s it p d k i0) as [[s' p1]|] eqn:Ef; [|discriminate].
      destruct (fpass (S i) fl sl it p1 d k i0) as [[r q]|] eqn:Er; [|discriminate]. injection E as <- <-.
      constructor; [eapply fiter_has_agg; eauto|]. eapply IH; eauto.
Qed.

Lemma remove_has_agg fl : forall sl p sl' p', length fl = length sl -> remove_preds fl sl p = Ok (sl', p') ->
  length sl' = length sl /\ Forall has_agg sl'.
Proof.
  induction fl as [|f fl IH]; intros [|s sl] p sl' p' L E; cbn in E, L; try discriminate.
  - injection E as <- <-. auto.
  - destruct (s_agg s); [|discriminate]. destruct (remove_preds fl sl _) as [[r q]|] eqn:Er; [|discriminate].
    injection E as <- <-. destruct (IH sl _ r q ltac:(lia) Er) as [I1 I2]. cbn. split; [lia|].
    constructor; auto. discriminate.
Qed.

Lemma reached_length st : hist st -> length (t_feats st) = length features.
Proof.
  induction 1 as [|st st' H IH C E]; [cbn; apply map_length|].
  destruct (iteration_ok _ _ _ E) as (sl & p & F & _ & _ & _ & _ & _ & _ & _ & R).
  pose proof (fpass_length _ _ _ _ _ _ _ _ _ _ (eq_sym IH) F) as L.
  destruct (t_isdiv st').
  - destruct (remove_has_agg features sl p _ _ ltac:(lia) R) as [L' _]. lia.
  - injection R as R1 R2. congruence.
Qed.

(** After a pass in which nothing is skipped, all features have factors. *)
Lemma reached_has_agg st : hist st ->
  (if c_hier cfg then c_thier cfg else 0%nat) = 0%nat /\ (1 <= t_iter st)%nat \/
  (c_hier cfg = true /\ (c_thier cfg < t_iter st)%nat) -> Forall has_agg (t_feats st).
Proof.
  intros H. induction H as [|st st' H IH C E]; intro Hor; [cbn in Hor; lia|].
  destruct (iteration_ok _ _ _ E) as (sl & p & F & I1 & _ & _ & _ & _ & _ & _ & R).
  pose proof (reached_length st H) as L.
  assert (A : Forall has_agg sl).
  { eapply fpass_no_skip; [symmetry; exact L| |exact F].
    intros f _. unfold skipped. destruct (c_hier cfg) eqn:Eh; [|reflexivity]. cbn [andb].
    replace (Nat.ltb (t_iter st) (c_thier cfg)) with false; [reflexivity|].
    symmetry. apply Nat.ltb_ge. destruct Hor as [[? ?]|[? ?]]; lia. }
  destruct (t_isdiv st') eqn:D.
  - pose proof (fpass_length _ _ _ _ _ _ _ _ _ _ (eq_sym L) F) as L'.
    destruct (remove_has_agg features sl p _ _ ltac:(lia) R) as [_ A']. exact A'.
  - injection R as R1 R2. rewrite <- R1. exact A.
Qed.

(** ** Errors *)
Lemma fiter_error i f s it p d k i0 e : fiter i f s it p d k i0 = Raise e ->
  e = TypeError /\ d = true /\ s_agg s = None.
Proof.
  unfold feature_iteration. cbv zeta. destruct (new_factors _ _ _ _ _ _ _ _ _) as [u fs].
  unfold visit_factors, limit_factors. destruct (_ && _); [|discriminate]. cbv zeta.
  destruct d; [|discriminate]. destruct (Nat.ltb 1 k).
  - destruct (is_diverged _ _); [|discriminate]. destruct (s_agg s); [discriminate|].
    intro E. injection E as <-. auto.
  - destruct (is_diverged _ _); discriminate.
Qed.

Lemma fpass_error fl : forall i sl it p d k i0 e, fpass i fl sl it p d k i0 = Raise e ->
  e = TypeError /\ d = true /\ exists s, In s sl /\ s_agg s = None.
Proof.
  induction fl as [|f fl IH]; intros i [|s sl] it p d k i0 e E; cbn [features_pass] in E; try discriminate.
  cbv zeta in E. destruct (skipped cfg f it).
  - destruct (fpass (S i) fl sl it p d k i0) as [[r q]|e'] eqn:Er; [discriminate|]. injection E as ->.
    destruct (IH _ _ _ _ _ _ _ _ Er) as (E1 & E2 & t & Ht & E3). split; auto. split; auto. exists t. split; [right|]; auto.
  - destruct (fiter i f s it p d k i0) as [[s' p1]|e'] eqn:Ef.
    + destruct (fpass (S i) fl sl it p1 d k i0) as [[r q]|e''] eqn:Er; [discriminate|]. injection E as ->.
      destruct (IH _ _ _ _ _ _ _ _ Er) as (E1 & E2 & t & Ht & E3). split; auto. split; auto. exists t. split; [right|]; auto.
    + injection E as ->. destruct (fiter_error _ _ _ _ _ _ _ _ _ Ef) as (E1 & E2 & E3).
      split; auto. split; auto. exists s. split; [left|]; auto.
Qed.

Lemma remove_error fl : forall sl p e, length fl = length sl -> remove_preds fl sl p = Raise e ->
  e = TypeError /\ exists s, In s sl /\ s_agg s = None.
Proof.
  induction fl as [|f fl IH]; intros [|s sl] p e L E; cbn in E, L; try discriminate.
  destruct (s_agg s) eqn:Ea.
  - destruct (remove_preds fl sl _) as [[r q]|e'] eqn:Er; [discriminate|]. injection E as ->.
    destruct (IH sl _ _ ltac:(lia) Er) as (E1 & t & Ht & E3). split; auto. exists t. split; [right|]; auto.
  - injection E as <-. split; auto. exists s. split; [left|]; auto.
Qed.

Lemma reached_isdiv_iter st : hist st -> t_isdiv st = true -> (1 <= t_iter st)%nat /\ (1 <= t_diverging st)%nat.
Proof.
  intros H D. destruct H as [|st st' H C E]; [discriminate|].
  destruct (iteration_ok _ _ _ E) as (sl & p & _ & I1 & _ & _ & _ & _ & I6 & _). rewrite D in I6. lia.
Qed.

Lemma reached_diverging_bound st : hist st -> (t_diverging st <= 4)%nat.
Proof.
  induction 1 as [|st st' H IH C E]; [cbn; lia|].
  destruct (iteration_ok _ _ _ E) as (sl & p & _ & _ & _ & _ & _ & _ & I6 & I7 & _).
  destruct (t_isdiv st'); [specialize (I7 eq_refl)|]; lia.
Qed.

(** Without hierarchical groups the only error is the convergence error. *)
Lemma error_kind fuel e : c_hier cfg = false -> some_iteration cfg -> fit fuel prior = Some (Raise e) -> e = ConvergenceError.
Proof.
  intros Hh Hs E. destruct (fit_raised fuel e E) as (st & R & [[C Ei]|[C Ef]]).
  - destruct e; auto. exfalso. unfold iteration in Ei.
    destruct (fpass _ _ _ _ _ _ _ _) as [[sl p]|e'] eqn:F.
    + destruct (is_diverged _ _) eqn:Ed; cbn [andb] in Ei; [|discriminate].
      destruct (Nat.leb 5 _); [discriminate|].
      destruct (remove_preds features sl p) as [[sl' p']|e'] eqn:Er; [discriminate|].
      pose proof (reached_length st R) as L.
      pose proof (fpass_length _ _ _ _ _ _ _ _ _ _ (eq_sym L) F) as L'.
      destruct (remove_error features sl p e' ltac:(lia) Er) as (_ & s & Hin & Hn).
      assert (A : Forall has_agg sl).
      { eapply fpass_no_skip; [symmetry; exact L| |exact F]. intros f _. unfold skipped. rewrite Hh. reflexivity. }
      rewrite Forall_forall in A. apply (A s Hin Hn).
    + injection Ei as ->. destruct (fpass_error _ _ _ _ _ _ _ _ _ F) as (_ & D & s & Hin & Hn).
      assert (A : Forall has_agg (t_feats st)).
      { apply reached_has_agg; auto. left. rewrite Hh. split; auto. apply reached_isdiv_iter; auto. }
      rewrite Forall_forall in A. apply (A s Hin Hn).
  - destruct e; auto. exfalso. unfold finish in Ef.
    assert (A : Forall has_agg (t_feats st)).
    { apply reached_has_agg; auto. left. rewrite Hh. split; auto.
      destruct R as [|st0 st R C0 E0].
      - exfalso. destruct (not_continues _ C) as (N1 & N2 & N3). destruct Hs as [Hs|(S1 & S2 & S3)]; [congruence|].
        unfold init_state in N1. cbn [t_iter t_delta t_losschange] in N1. rewrite Rabs_pos_eq in N1.
        + destruct N1 as [N1|[N1|N1]]; [lia|lra|lra].
        + apply IZR_le. apply Z.pow_nonneg. lia.
      - destruct (iteration_ok _ _ _ E0) as (_ & _ & _ & I1 & _). lia. }
    assert (B : forallb (fun s => match s_agg s with Some _ => true | None => false end) (t_feats st) = true).
    { apply forallb_forall. intros s Hin. rewrite Forall_forall in A. specialize (A s Hin). unfold has_agg in A. destruct (s_agg s); auto. }
    rewrite B in Ef. destruct (_ && _); discriminate.
Qed.

(** ** Hierarchical schedule *)
Lemma fpass_skipped fl : forall i sl it p d k i0 sl' p' m f s, length fl = length sl ->
  fpass i fl sl it p d k i0 = Ok (sl', p') -> nth_error fl m = Some f -> nth_error sl m = Some s ->
  skipped cfg f it = true -> nth_error sl' m = Some (skip_state s).
Proof.
  induction fl as [|f0 fl IH]; intros i [|s0 sl] it p d k i0 sl' p' m f s L E Hf Hs Hsk; cbn [features_pass] in E; cbn in L; try discriminate.
  - destruct m; discriminate.
  - cbv zeta in E. destruct (if skipped cfg f0 it then _ else _) as [[s' p1]|] eqn:Eh; [|discriminate].
    destruct (fpass (S i) fl sl it p1 d k i0) as [[r q]|] eqn:Er; [|discriminate]. injection E as <- <-.
    destruct m as [|m]; cbn in Hf, Hs |- *.
    + injection Hf as ->. injection Hs as ->. rewrite Hsk in Eh. injection Eh as <- <-. reflexivity.
    + eapply IH; eauto.
Qed.

Lemma hier_untouched st m f s : hist st -> c_hier cfg = true -> (t_iter st <= c_thier cfg)%nat ->
  nth_error features m = Some f -> f_hier f = false -> nth_error (t_feats st) m = Some s ->
  s_agg s = None /\ s_fitted s = false /\ s_factors s = zeros (S (f_finite f)).
Proof.
  intros H Hh. revert s. induction H as [|st st' H IH C E]; intros s Hi Hm Hf Hs.
  - cbn in Hs. rewrite nth_error_map, Hm in Hs. cbn in Hs. injection Hs as <-. auto.
  - destruct (iteration_ok _ _ _ E) as (sl & p & F & I1 & _ & _ & _ & _ & _ & _ & R).
    pose proof (reached_length st H) as L.
    assert (Hm' : exists s0, nth_error (t_feats st) m = Some s0).
    { destruct (nth_error (t_feats st) m) eqn:En; [eauto|]. apply nth_error_None in En.
      assert (m < length features)%nat by (apply nth_error_Some; congruence). lia. }
    destruct Hm' as (s0 & Hs0).
    assert (Hsk : skipped cfg f (t_iter st) = true).
    { unfold skipped. rewrite Hh, Hf. rewrite (proj2 (Nat.ltb_lt _ _)) by lia. reflexivity. }
    pose proof (fpass_skipped _ _ _ _ _ _ _ _ _ _ m f s0 (eq_sym L) F Hm Hs0 Hsk) as Hsl.
    destruct (IH s0 ltac:(lia) Hm Hf Hs0) as (I2 & I3 & I4).
    destruct (t_isdiv st') eqn:D.
    + exfalso. pose proof (fpass_length _ _ _ _ _ _ _ _ _ _ (eq_sym L) F) as L'.
      assert (A : Forall has_agg sl).
      { clear -R L L'. assert (LL : length features = length sl) by lia. clear L L'. revert R LL. generalize (t_feats st') (t_preds st').
        intros l q. revert sl p l q. induction features as [|f fl IH]; intros [|s sl] p l q E L; cbn in E, L; try discriminate; constructor.
        - destruct (s_agg s) eqn:Ea; [|discriminate]. unfold has_agg. congruence.
        - destruct (s_agg s) eqn:Ea; [|discriminate].
          destruct (remove_preds fl sl _) as [[r q']|] eqn:Er; [|discriminate]. eapply IH; eauto. }
      rewrite Forall_forall in A. apply (A (skip_state s0)); [eapply nth_error_In; eauto|]. exact I2.
    + injection R as R1 R2. rewrite <- R1, Hsl in Hs. injection Hs as <-. cbn. auto.
Qed.

Lemma all_trained fuel st : fit fuel prior = Some (Ok st) -> Forall has_agg (t_feats st).
Proof.
  intro E. destruct (fit_reached fuel st E) as (_ & _ & F). unfold finish in F.
  destruct (forallb _ _) eqn:B; [|discriminate]. rewrite forallb_forall in B.
  apply Forall_forall. intros s Hs. specialize (B s Hs). unfold has_agg. destruct (s_agg s); congruence.
Qed.

(** Without divergence hierarchical training never fails. *)
Lemma hier_no_type_error fuel : c_hier cfg = true ->
  (forall p, ~ diverges (loss prior) (loss p)) -> exists st, (iteration_bound cfg <= fuel)%nat -> fit fuel prior = Some (Ok st).
Proof.
  intros Hh Hd. destruct fit_terminates as (r & R1 & R2). destruct r as [st|e].
  - exists st. intros Hf. apply R1. auto.
  - exists start. intros Hf. exfalso. specialize (R1 fuel Hf).
    assert (D : forall s, hist s -> t_isdiv s = false).
    { intros s H. destruct H as [|s0 s H C E]; auto.
      destruct (iteration_ok _ _ _ E) as (sl & p & _ & _ & _ & _ & _ & I5 & _).
      rewrite I5. unfold is_diverged. apply Rltb_false. specialize (Hd p). unfold diverges in Hd. lra. }
    destruct (fit_raised fuel e R1) as (st & R & [[C Ei]|[C Ef]]).
    + unfold iteration in Ei. destruct (fpass _ _ _ _ _ _ _ _) as [[sl p]|e'] eqn:F.
      * replace (is_diverged (loss prior) (loss p)) with false in Ei; [discriminate|].
        symmetry. unfold is_diverged. apply Rltb_false. specialize (Hd p). unfold diverges in Hd. lra.
      * destruct (fpass_error _ _ _ _ _ _ _ _ _ F) as (_ & D' & _). rewrite D in D' by auto. discriminate.
    + unfold finish in Ef.
      assert (A : Forall has_agg (t_feats st)).
      { apply reached_has_agg; auto. right. split; auto. apply (not_continues st C). auto. }
      assert (B : forallb (fun s => match s_agg s with Some _ => true | None => false end) (t_feats st) = true).
      { apply forallb_forall. intros s Hin. rewrite Forall_forall in A. specialize (A s Hin). unfold has_agg in A. destruct (s_agg s); auto. }
      rewrite B in Ef.
      assert (t_loss st <= loss prior * 2).
      { destruct R as [|s0 s H C0 E]; [cbn; specialize (Hd prior); unfold diverges in Hd; lra|].
        destruct (iteration_ok _ _ _ E) as (sl & p & _ & _ & I2 & _). rewrite I2. specialize (Hd p). unfold diverges in Hd. lra. }
      replace (is_diverged (loss prior) (t_loss st)) with false in Ef; [discriminate|].
      symmetry. unfold is_diverged. apply Rltb_false. auto.
Qed.

(** ** Divergence *)
Notation histl := (history cfg features calc smooth calib rate loss prior).

Lemma history_reached ls st : histl ls st -> hist st.
Proof. induction 1; [constructor|eapply reached_next; eauto]. Qed.

Lemma reached_history st : hist st -> exists ls, histl ls st.
Proof. induction 1 as [|st st' H [ls IH] C E]; [exists []; constructor|eexists; eapply history_next; eauto]. Qed.

Lemma is_diverged_iff i0 l : is_diverged i0 l = true <-> diverges i0 l.
Proof. unfold is_diverged, diverges. apply Rltb_iff. Qed.

Lemma history_count ls st : histl ls st -> diverging_count (loss prior) ls (t_diverging st) /\ length ls = t_iter st.
Proof.
  induction 1 as [|ls st st' H [IH1 IH2] C E]; [split; [constructor|reflexivity]|].
  destruct (iteration_ok _ _ _ E) as (sl & p & _ & I1 & I2 & _ & _ & I5 & I6 & _).
  split; [|cbn; lia]. rewrite <- I2 in I5. rewrite I6. destruct (t_isdiv st') eqn:D.
  - apply count_yes; auto. apply is_diverged_iff. auto.
  - apply count_no; auto. rewrite <- is_diverged_iff. congruence.
Qed.

Lemma fifth_divergence ls st sl p : histl ls st -> diverging_count (loss prior) ls 4 ->
  fpass 0 features (t_feats st) (t_iter st) (t_preds st) (t_isdiv st) (t_diverging st) (loss prior) = Ok (sl, p) ->
  diverges (loss prior) (loss p) ->
  iter (loss prior) st = Raise ConvergenceError.
Proof.
  intros H Hc F D. destruct (history_count ls st H) as [Hc' _].
  assert (Hd : t_diverging st = 4%nat).
  { clear -Hc Hc'. revert Hc'. generalize (t_diverging st). induction Hc; intros n' Hc'; inversion Hc'; subst; try contradiction; auto. }
  unfold iteration. rewrite F. apply is_diverged_iff in D. rewrite D, Hd. reflexivity.
Qed.

Lemma convergence_error_reason ls st : histl ls st -> iter (loss prior) st = Raise ConvergenceError ->
  diverging_count (loss prior) ls 4 /\
  exists sl p, fpass 0 features (t_feats st) (t_iter st) (t_preds st) (t_isdiv st) (t_diverging st) (loss prior) = Ok (sl, p) /\
    diverges (loss prior) (loss p).
Proof.
  intros H E. unfold iteration in E. destruct (fpass _ _ _ _ _ _ _ _) as [[sl p]|e] eqn:F.
  - destruct (is_diverged _ _) eqn:D; cbn [andb] in E; [|discriminate].
    destruct (Nat.leb 5 (S (t_diverging st))) eqn:E5.
    + apply Nat.leb_le in E5. pose proof (reached_diverging_bound st (history_reached _ _ H)).
      split; [|exists sl, p; split; auto; apply is_diverged_iff; auto].
      replace 4%nat with (t_diverging st) by lia. apply history_count. auto.
    + destruct (remove_preds features sl p) as [[? ?]|e'] eqn:Er; [discriminate|].
      pose proof (reached_length st (history_reached _ _ H)) as L.
      pose proof (fpass_length _ _ _ _ _ _ _ _ _ _ (eq_sym L) F) as L'.
      destruct (remove_error features sl p e' ltac:(lia) Er) as (-> & _). discriminate.
  - injection E as ->. destruct (fpass_error _ _ _ _ _ _ _ _ _ F) as (? & _). discriminate.
Qed.

End Hist.
