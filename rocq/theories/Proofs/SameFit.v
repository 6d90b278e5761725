(** Trainings that see the same numbers are the same. *)
From Coq Require Import ZArith QArith List Bool Reals Lia Lra.
From Verif.Model Require Import Num LexBins Train.
From Verif.Proofs Require Import TrainFacts InertFacts.
Import ListNotations.
Local Open Scope R_scope.

Section Same.
Variables (cfg : settings) (F : list feature) (N : nat).
Variables (calc1 calc2 : nat -> nat -> preds -> list R) (smooth1 smooth2 : nat -> nat -> preds -> list R -> nat -> option R).
Variables (calib1 calib2 : nat -> list R -> list R) (rate : nat -> nat -> R) (loss1 loss2 : preds -> R).
Hypothesis HF : forall f, In f F -> length (f_lex f) = N /\ f_ext f = false.
Hypothesis HC : forall i it p, length (p_factors p) = N -> calc1 i it p = calc2 i it p.
Hypothesis HS : forall i it p v b, length (p_factors p) = N -> smooth1 i it p v b = smooth2 i it p v b.
Hypothesis HK : forall i v, calib1 i v = calib2 i v.
Hypothesis HL : forall p, length (p_factors p) = N -> loss1 p = loss2 p.

Lemma new_same i f s it p : length (p_factors p) = N ->
  new_factors calc1 smooth1 calib1 rate i f s it p = new_factors calc2 smooth2 calib2 rate i f s it p.
Proof.
  intro L. unfold new_factors. rewrite (HC i it p L), HK. f_equal. f_equal. f_equal. apply map_ext. intro b. rewrite (HS i it p _ b L). reflexivity.
Qed.
Lemma limit_same f s u fs p d k ini : length (f_lex f) = N -> f_ext f = false -> length (p_factors p) = N ->
  limit_factors cfg loss1 f s u fs p d k ini = limit_factors cfg loss2 f s u fs p d k ini.
Proof.
  intros Lf X L. unfold limit_factors. destruct (c_log cfg && c_aggregate cfg); [|reflexivity]. cbv zeta. destruct d; [|reflexivity].
  rewrite (HL (add_preds _ _ _)); [reflexivity|]. rewrite X. unfold add_preds. cbn [p_factors]. apply vadd_length; [exact L|rewrite gather_length; exact Lf].
Qed.
Lemma iter_same i f s it p d k ini : In f F -> length (p_factors p) = N ->
  feature_iteration cfg calc1 smooth1 calib1 rate loss1 i f s it p d k ini = feature_iteration cfg calc2 smooth2 calib2 rate loss2 i f s it p d k ini.
Proof.
  intros If L. destruct (HF f If) as (Lf & X). unfold feature_iteration.
  set (p0 := if c_aggregate cfg then p else _).
  assert (L0 : length (p_factors p0) = N).
  { unfold p0. destruct (c_aggregate cfg); [exact L|]. rewrite X. unfold sub_preds. cbn [p_factors]. apply vsub_length; [exact L|rewrite gather_length; exact Lf]. }
  clearbody p0. rewrite (new_same i f s it p0 L0). destruct (new_factors _ _ _ _ _ _ _ _ _) as [u fs].
  unfold visit_factors. rewrite (limit_same f s u fs p0 d k ini Lf X L0). reflexivity.
Qed.
Lemma pass_same it d k ini : forall fl i sl p, incl fl F -> length (p_factors p) = N ->
  features_pass cfg calc1 smooth1 calib1 rate loss1 i fl sl it p d k ini = features_pass cfg calc2 smooth2 calib2 rate loss2 i fl sl it p d k ini /\
  forall r q, features_pass cfg calc2 smooth2 calib2 rate loss2 i fl sl it p d k ini = Ok (r, q) -> length (p_factors q) = N.
Proof.
  induction fl as [|f fl IH]; intros i [|s sl] p Hi L; cbn [features_pass].
  1, 2, 3: split; [reflexivity|]; intros r q E; injection E as _ <-; exact L.
  assert (If : In f F) by (apply Hi; left; reflexivity). assert (Hi' : incl fl F) by (intros x Hx; apply Hi; right; exact Hx).
  rewrite (iter_same i f s it p d k ini If L).
  set (here := if skipped cfg f it then _ else _).
  assert (Lh : forall s' p', here = Ok (s', p') -> length (p_factors p') = N).
  { intros s' p' E. unfold here in E. destruct (skipped cfg f it); [injection E as _ <-; exact L|].
    destruct (HF f If) as (Lf & X). eapply iter_shape; [exact Lf|exact X|exact L|exact E]. }
  destruct here as [[s' p']|e]; [|split; [reflexivity|intros; discriminate]].
  destruct (IH (S i) sl p' Hi' (Lh s' p' eq_refl)) as (A & B). rewrite A. split; [reflexivity|].
  intros r q E. cbn iota beta in E. destruct (features_pass cfg calc2 smooth2 calib2 rate loss2 (S i) fl sl it p' d k ini) as [[r' q']|e]; [|discriminate E]. injection E as _ <-. exact (B _ _ eq_refl).
Qed.
Lemma remove_shape : forall fl sl p r q, incl fl F -> length (p_factors p) = N -> remove_preds fl sl p = Ok (r, q) -> length (p_factors q) = N.
Proof.
  induction fl as [|f fl IH]; intros [|s sl] p r q Hi L E; cbn [remove_preds] in E; try (injection E as _ <-; exact L).
  destruct (s_agg s) as [a|]; [|discriminate]. destruct (HF f (Hi f (or_introl eq_refl))) as (Lf & X).
  destruct (remove_preds fl sl _) as [[r' q']|e] eqn:E'; [|discriminate]. injection E as _ <-.
  refine (IH sl _ r' q' (fun x Hx => Hi x (or_intror Hx)) _ E'). rewrite X. unfold sub_preds. cbn [p_factors]. apply vsub_length; [exact L|rewrite gather_length; exact Lf].
Qed.
Lemma iteration_same ini st : length (p_factors (t_preds st)) = N ->
  iteration cfg F calc1 smooth1 calib1 rate loss1 ini st = iteration cfg F calc2 smooth2 calib2 rate loss2 ini st /\
  forall st', iteration cfg F calc2 smooth2 calib2 rate loss2 ini st = Ok st' -> length (p_factors (t_preds st')) = N.
Proof.
  intro L. unfold iteration. destruct (pass_same (t_iter st) (t_isdiv st) (t_diverging st) ini F 0%nat (t_feats st) (t_preds st) (incl_refl F) L) as (A & B).
  rewrite A. destruct (features_pass cfg calc2 _ _ _ _ _ _ _ _ _ _ _ _) as [[sl p]|e]; [|split; [reflexivity|intros; discriminate]].
  specialize (B sl p eq_refl). rewrite (HL p B). split; [reflexivity|]. cbv zeta. intros st' E.
  destruct (is_diverged ini (loss2 p)); cbn [andb] in E.
  - destruct (Nat.leb 5 _); [discriminate|]. destruct (remove_preds F sl p) as [[r q]|e] eqn:E'; [|discriminate]. injection E as <-. cbn [t_preds].
    exact (remove_shape F sl p r q (incl_refl F) B E').
  - injection E as <-. exact B.
Qed.
Lemma loop_same ini : forall fuel st, length (p_factors (t_preds st)) = N ->
  loop cfg F calc1 smooth1 calib1 rate loss1 fuel ini st = loop cfg F calc2 smooth2 calib2 rate loss2 fuel ini st.
Proof.
  induction fuel as [|fuel IH]; intros st L; cbn [loop]; destruct (continues cfg st); try reflexivity.
  destruct (iteration_same ini st L) as (A & B). rewrite A. destruct (iteration cfg F calc2 _ _ _ _ _ _) as [st'|e]; [|reflexivity]. apply IH, B. reflexivity.
Qed.
Lemma fit_same fuel p : length (p_factors p) = N ->
  fit_main cfg F calc1 smooth1 calib1 rate loss1 fuel p = fit_main cfg F calc2 smooth2 calib2 rate loss2 fuel p.
Proof. intro L. unfold fit_main, init_state. rewrite (HL p L). apply loop_same. exact L. Qed.
End Same.
