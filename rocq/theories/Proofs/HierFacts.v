(** During the first iterations hierarchical groups are trained as if they were alone. *)
From Coq Require Import ZArith QArith List Bool Arith Lia Reals Lra.
From Verif.Model Require Import Num LexBins Train Predict Link Estimators WholeFit.
From Verif.Spec Require Import TrainSpec HierSpec.
From Verif.Proofs Require Import TrainFacts TrainHistory.
Import ListNotations.
Local Open Scope R_scope.

Definition kept (F : list feature) (sl : list fstate) : list fstate := map snd (filter (fun e => f_hier (fst e)) (combine F sl)).

Section Sub.
Variable cfg : settings.
Variable loss : preds -> R.
Variables calc1 calc2 : nat -> nat -> preds -> list R.
Variables smooth1 smooth2 : nat -> nat -> preds -> list R -> nat -> option R.
Variables calib1 calib2 : nat -> list R -> list R.
Variables rate1 rate2 : nat -> nat -> R.
Hypothesis Hh : c_hier cfg = true.

Definition agree (i j : nat) : Prop :=
  calc1 i = calc2 j /\ smooth1 i = smooth2 j /\ calib1 i = calib2 j /\ forall it, rate1 it i = rate2 it j.
Inductive Agree : nat -> nat -> list feature -> Prop :=
| agree_nil i j : Agree i j []
| agree_keep i j f F : f_hier f = true -> agree i j -> Agree (S i) (S j) F -> Agree i j (f :: F)
| agree_drop i j f F : f_hier f = false -> Agree (S i) j F -> Agree i j (f :: F).

Lemma new_agree i j f s it p : agree i j -> new_factors calc1 smooth1 calib1 rate1 i f s it p = new_factors calc2 smooth2 calib2 rate2 j f s it p.
Proof. intros (A & B & C & E). unfold new_factors. rewrite A, B, C, E. reflexivity. Qed.
Lemma iter_agree i j f s it p d k ini : agree i j ->
  feature_iteration cfg calc1 smooth1 calib1 rate1 loss i f s it p d k ini = feature_iteration cfg calc2 smooth2 calib2 rate2 loss j f s it p d k ini.
Proof. intro A. unfold feature_iteration. rewrite (new_agree i j f s it _ A). reflexivity. Qed.

Definition related (F : list feature) (a b : outcome (list fstate * preds)) : Prop :=
  match a, b with
  | Ok (sl, p), Ok (tl, q) => kept F sl = tl /\ p = q /\ length sl = length F
  | Raise e, Raise e' => e = e'
  | _, _ => False
  end.
Lemma pass_related it d k ini : (it < c_thier cfg)%nat -> forall i j F, Agree i j F -> forall sl p, length sl = length F ->
  related F (features_pass cfg calc1 smooth1 calib1 rate1 loss i F sl it p d k ini)
            (features_pass cfg calc2 smooth2 calib2 rate2 loss j (filter f_hier F) (kept F sl) it p d k ini).
Proof.
  intros Hit i j F A. induction A as [i j|i j f F E G A IH|i j f F E A IH]; intros sl p L.
  - destruct sl; [|discriminate]. cbn. auto.
  - destruct sl as [|s sl]; [discriminate|]. injection L as L. unfold kept. cbn [combine filter fst]. rewrite E. cbn [map snd].
    cbn [features_pass]. unfold skipped. rewrite E, andb_false_r. rewrite (iter_agree i j f s it p d k ini G).
    destruct (feature_iteration cfg calc2 smooth2 calib2 rate2 loss j f s it p d k ini) as [[s' p']|e]; [|reflexivity].
    pose proof (IH sl p' L) as R0. fold (kept F sl). unfold related in *.
    destruct (features_pass cfg calc1 _ _ _ _ _ _ _ _ _ _ _ _) as [[r q]|e], (features_pass cfg calc2 _ _ _ _ _ _ _ _ _ _ _ _) as [[r' q']|e']; try contradiction; auto.
    destruct R0 as (R1 & R2 & R3). split; [|split; [exact R2|cbn; congruence]]. unfold kept. cbn [combine filter fst]. rewrite E. cbn [map snd]. f_equal. exact R1.
  - destruct sl as [|s sl]; [discriminate|]. injection L as L. unfold kept. cbn [combine filter fst]. rewrite E. fold (kept F sl).
    cbn [features_pass]. unfold skipped at 1. rewrite E, Hh, (proj2 (Nat.ltb_lt _ _) Hit). cbn [andb negb].
    pose proof (IH sl p L) as R0. unfold related in *.
    destruct (features_pass cfg calc1 _ _ _ _ _ _ _ _ _ _ _ _) as [[r q]|e], (features_pass cfg calc2 _ _ _ _ _ _ _ _ _ _ _ _) as [[r' q']|e']; try contradiction; auto.
    destruct R0 as (R1 & R2 & R3). split; [|split; [exact R2|cbn; congruence]]. unfold kept. cbn [combine filter fst]. rewrite E. exact R1.
Qed.

(** Features that are not hierarchical have not been fitted. *)
Definition untouched (F : list feature) (sl : list fstate) : Prop :=
  forall m f s, nth_error F m = Some f -> f_hier f = false -> nth_error sl m = Some s -> s_agg s = None.
Lemma remove_untouched : forall F sl p, length sl = length F -> untouched F sl ->
  if forallb f_hier F then related F (remove_preds F sl p) (remove_preds (filter f_hier F) (kept F sl) p)
  else remove_preds F sl p = Raise TypeError.
Proof.
  induction F as [|f F IH]; intros [|s sl] p L U; try discriminate; [cbn; auto|]. injection L as L.
  assert (U' : untouched F sl) by (intros m; exact (U (S m))).
  cbn [forallb remove_preds filter]. destruct (f_hier f) eqn:E; cbn [andb].
  - unfold kept. cbn [combine filter fst]. rewrite E. cbn [map snd]. fold (kept F sl). cbn [remove_preds].
    specialize (IH sl (sub_preds (f_ext f) p (gather (s_factors s) (f_lex f))) L U').
    destruct (s_agg s); [|destruct (forallb f_hier F); reflexivity].
    destruct (forallb f_hier F).
    + unfold related in *. destruct (remove_preds F sl _) as [[r q]|e], (remove_preds (filter f_hier F) _ _) as [[r' q']|e']; try contradiction; auto.
      destruct IH as (R1 & R2 & R3). split; [|split; [exact R2|cbn; congruence]]. unfold kept. cbn [combine filter fst]. rewrite E. cbn [map snd]. f_equal. exact R1.
    + rewrite IH. reflexivity.
  - rewrite (U 0%nat f s eq_refl E eq_refl). reflexivity.
Qed.

Lemma kept_init F : kept F (map init_fstate F) = map init_fstate (filter f_hier F).
Proof. induction F as [|f F IH]; [reflexivity|]. unfold kept in *. cbn [map combine filter fst]. destruct (f_hier f); cbn [map snd]; rewrite IH; reflexivity. Qed.

Section Steps.
Variable F : list feature.
Variable prior : preds.
Hypothesis HA : Agree 0 0 F.
Let hist1 := reached cfg F calc1 smooth1 calib1 rate1 loss prior.
Let hist2 := reached cfg (filter f_hier F) calc2 smooth2 calib2 rate2 loss prior.

Lemma vetoed st : (t_iter st <= c_thier cfg)%nat -> continues cfg st = true.
Proof. intro H. unfold continues, check_stop, veto_hierarchical. rewrite Hh, (proj2 (Nat.leb_le _ _) H). cbn. rewrite andb_false_r. reflexivity. Qed.

Lemma features_length st : hist1 st -> length (t_feats st) = length F.
Proof. intro H. apply (reached_length cfg F calc1 smooth1 calib1 rate1 loss prior st H). Qed.
Lemma steps_untouched st : hist1 st -> (t_iter st <= c_thier cfg)%nat -> untouched F (t_feats st).
Proof. intros H I m f s A B C. apply (hier_untouched cfg F calc1 smooth1 calib1 rate1 loss prior st m f s H Hh I A B C). Qed.

Lemma step_related st tt : (t_iter st < c_thier cfg)%nat -> length (t_feats st) = length F -> untouched F (t_feats st) ->
  same_progress st tt -> t_feats tt = kept F (t_feats st) ->
  match iteration cfg F calc1 smooth1 calib1 rate1 loss (loss prior) st, iteration cfg (filter f_hier F) calc2 smooth2 calib2 rate2 loss (loss prior) tt with
  | Ok st', Ok tt' => same_progress st' tt' /\ t_feats tt' = kept F (t_feats st')
  | Raise e, Raise e' => e = e'
  | Raise e, Ok tt' => forallb f_hier F = false /\ t_isdiv tt' = true
  | Ok _, Raise _ => False
  end.
Proof.
  intros I L U (P1 & P2 & P3 & P4 & P5 & P6) Q. unfold iteration. rewrite P1, P2, P3, P5, P6, Q.
  pose proof (pass_related (t_iter st) (t_isdiv st) (t_diverging st) (loss prior) I 0 0 F HA (t_feats st) (t_preds st) L) as R0.
  unfold related in R0.
  assert (Un : forall sl p, features_pass cfg calc1 smooth1 calib1 rate1 loss 0 F (t_feats st) (t_iter st) (t_preds st) (t_isdiv st) (t_diverging st) (loss prior) = Ok (sl, p) -> untouched F sl).
  { intros sl p E m f s A B C. revert E A B C. generalize (t_preds st). revert m s. assert (Gen : forall F0 i sl0 sl p0 p m s, untouched F0 sl0 ->
      features_pass cfg calc1 smooth1 calib1 rate1 loss i F0 sl0 (t_iter st) p0 (t_isdiv st) (t_diverging st) (loss prior) = Ok (sl, p) ->
      nth_error F0 m = Some f -> f_hier f = false -> nth_error sl m = Some s -> s_agg s = None).
    { clear - I Hh. induction F0 as [|g F0 IH]; intros i [|s0 sl0] sl p0 p m s U0 E A B C; cbn [features_pass] in E; try (injection E as <- _; destruct m; discriminate).
      destruct m as [|m].
      - injection A as ->. unfold skipped in E. rewrite B, Hh, (proj2 (Nat.ltb_lt _ _) I) in E. cbn [andb negb] in E.
        destruct (features_pass _ _ _ _ _ _ _ _ _ _ _ _ _ _) as [[r q]|e]; [|discriminate]. injection E as <- _. injection C as <-. cbn [s_agg].
        exact (U0 0%nat f s0 eq_refl B eq_refl).
      - destruct (if skipped cfg g (t_iter st) then _ else _) as [[s1 p1]|e]; [|discriminate].
        destruct (features_pass cfg calc1 smooth1 calib1 rate1 loss (S i) F0 sl0 (t_iter st) p1 _ _ _) as [[r q]|e] eqn:E'; [|discriminate]. injection E as <- _.
        exact (IH (S i) sl0 r p1 q m s (fun m' => U0 (S m')) E' A B C). }
    intros m s p0 E A B C. exact (Gen F 0%nat (t_feats st) sl p0 p m s U E A B C). }
  destruct (features_pass cfg calc1 _ _ _ _ _ _ _ _ _ _ _ _) as [[sl p]|e], (features_pass cfg calc2 _ _ _ _ _ _ _ _ _ _ _ _) as [[tl q]|e']; try contradiction; [|exact R0].
  destruct R0 as (R1 & <- & R3). cbv zeta. destruct (is_diverged (loss prior) (loss p)) eqn:D; cbn [andb].
  - destruct (Nat.leb 5 (S (t_diverging st))); [reflexivity|].
    pose proof (remove_untouched F sl p R3 (Un sl p eq_refl)) as Rm. rewrite <- R1. destruct (forallb f_hier F) eqn:Fa.
    + unfold related in Rm. destruct (remove_preds F sl p) as [[r q]|e], (remove_preds (filter f_hier F) (kept F sl) p) as [[r' q']|e']; try contradiction; [|exact Rm].
      destruct Rm as (M1 & <- & _). split; [repeat split; cbn; congruence|cbn; congruence].
    + rewrite Rm. destruct (remove_preds (filter f_hier F) (kept F sl) p) as [[r' q']|e'] eqn:E'; [split; reflexivity|].
      assert (Te : forall G tl q e, remove_preds G tl q = Raise e -> e = TypeError).
      { clear. induction G as [|g G IH]; intros [|t tl] q e E; cbn in E; try discriminate. destruct (s_agg t); [|congruence].
        destruct (remove_preds G tl _) as [[? ?]|e0] eqn:E0; [discriminate|]. injection E as <-. exact (IH _ _ _ E0). }
      symmetry. exact (Te _ _ _ _ E').
  - split; [repeat split; cbn; congruence|cbn; congruence].
Qed.

Lemma iteration_counts st st' features calc smooth calib rate :
  iteration cfg features calc smooth calib rate loss (loss prior) st = Ok st' -> t_iter st' = S (t_iter st) /\ (t_diverging st <= t_diverging st')%nat /\ (t_isdiv st' = true -> t_diverging st' = S (t_diverging st)).
Proof.
  unfold iteration. destruct (features_pass _ _ _ _ _ _ _ _ _ _ _ _ _ _) as [[sl p]|]; [|discriminate]. cbv zeta.
  destruct (_ && _); [discriminate|]. destruct (if is_diverged _ _ then _ else _) as [[r q]|]; [|discriminate]. intro E. injection E as <-. cbn.
  split; [reflexivity|]. destruct (is_diverged _ _); split; try lia; try reflexivity; discriminate.
Qed.

Theorem phase_restricts st : hist1 st -> (t_iter st <= c_thier cfg)%nat ->
  exists tt, hist2 tt /\ same_progress st tt /\ t_feats tt = kept F (t_feats st).
Proof.
  intro H. induction H as [|st st' H IH C E]; intro I.
  - exists (init_state (filter f_hier F) loss prior). split; [constructor|]. split; [repeat split|cbn; symmetry; apply kept_init].
  - destruct (iteration_counts _ _ _ _ _ _ _ E) as [It _]. destruct IH as (tt & T1 & T2 & T3); [lia|].
    pose proof (step_related st tt ltac:(lia) (features_length st H) (steps_untouched st H ltac:(lia)) T2 T3) as R0. rewrite E in R0.
    destruct (iteration cfg (filter f_hier F) _ _ _ _ _ _ tt) as [tt'|e] eqn:E'; [|contradiction]. exists tt'. split; [|exact R0].
    apply (reached_next _ _ _ _ _ _ _ _ tt tt' T1); [apply vetoed; destruct T2 as (_ & -> & _); lia|exact E'].
Qed.
Theorem phase_extends tt : hist2 tt -> (t_iter tt <= c_thier cfg)%nat -> forallb f_hier F = true \/ t_diverging tt = 0%nat ->
  exists st, hist1 st /\ same_progress st tt /\ t_feats tt = kept F (t_feats st).
Proof.
  intro H. induction H as [|tt tt' H IH C E]; intros I Dv.
  - exists (init_state F loss prior). split; [constructor|]. split; [repeat split|cbn; symmetry; apply kept_init].
  - destruct (iteration_counts _ _ _ _ _ _ _ E) as (It & Dl & Di).
    destruct IH as (st & T1 & T2 & T3); [lia|destruct Dv; [left; assumption|right; lia]|].
    assert (Is : t_iter st = t_iter tt) by (destruct T2 as (_ & Q & _); auto).
    pose proof (step_related st tt ltac:(lia) (features_length st T1) (steps_untouched st T1 ltac:(lia)) T2 T3) as R0. rewrite E in R0.
    destruct (iteration cfg F _ _ _ _ _ _ st) as [st'|e] eqn:E'.
    + exists st'. split; [|exact R0]. apply (reached_next _ _ _ _ _ _ _ _ st st' T1); [apply vetoed; lia|exact E'].
    + destruct R0 as [R1 R2]. exfalso. destruct Dv as [Dv|Dv]; [congruence|]. rewrite (Di R2) in Dv. discriminate.
Qed.
End Steps.
End Sub.
