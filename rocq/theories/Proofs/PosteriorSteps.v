(** Repeated steps of one bin towards the ratio of observed to predicted sums, as the
    Poisson regressor makes them: factors are limited per step and in total. *)
From Coq Require Import ZArith Reals Lra Lia Psatz.
From Verif.Model Require Import Train.
From Verif.Spec Require Import TrainSpec.
From Verif.Proofs Require Import TrainBounds TrainExamples MonotoneTrain.
Local Open Scope R_scope.

Section Bin.
(** [G]: posterior estimate of the observed sum, [b0]: prior of the predicted one, [W]: weight,
    [sc]: baseline, [lo] and [hi]: limits of the factor, all logarithms. *)
Variables (G b0 W sc lo hi : R).
Hypothesis HG : 0 < G.
Hypothesis Hb : 0 < b0.
Hypothesis HW : 0 <= W.
Hypothesis Hlo : lo <= 0.
Hypothesis Hhi : 0 <= hi.

Definition est (v : R) : R := ln (G / (W * exp v + b0)).
Definition moved (r v : R) : R := sc + clip lo hi (v - sc + clip (ln (1/2)) (ln 2) (r * est v)).

Lemma den v : 0 < W * exp v + b0.
Proof. pose proof (exp_pos v). assert (0 <= W * exp v) by (apply Rmult_le_pos; lra). lra. Qed.
Lemma exp_est v : exp (est v) = G / (W * exp v + b0).
Proof. unfold est. apply exp_ln. apply Rdiv_lt_0_compat; [exact HG|apply den]. Qed.

Lemma exp_mono a b : a <= b -> exp a <= exp b.
Proof. intros [H| ->]; [left; apply exp_increasing; exact H|right; reflexivity]. Qed.
Lemma weighted_mono a b : a <= b -> W * exp a <= W * exp b.
Proof. intro H. apply Rmult_le_compat_l; [exact HW|apply exp_mono; exact H]. Qed.

Lemma est_up v : W * exp v + b0 <= G -> 0 <= est v.
Proof.
  intro H. unfold est. rewrite <- ln_1. apply ln_le_mono; [lra|]. pose proof (den v).
  apply Rmult_le_reg_r with (W * exp v + b0); [exact H0|]. replace (G / (W * exp v + b0) * (W * exp v + b0)) with G by (field; lra). lra.
Qed.
Lemma est_down v : G <= W * exp v + b0 -> est v <= 0.
Proof.
  intro H. unfold est. rewrite <- ln_1. pose proof (den v). apply ln_le_mono; [apply Rdiv_lt_0_compat; assumption|].
  apply Rmult_le_reg_r with (W * exp v + b0); [exact H0|]. replace (G / (W * exp v + b0) * (W * exp v + b0)) with G by (field; lra). lra.
Qed.
Lemma full_step v : W * exp (v + est v) + b0 - G = (W * exp v + b0 - G) * (b0 / (W * exp v + b0)).
Proof. rewrite exp_plus, exp_est. pose proof (den v). field. lra. Qed.
Lemma share v : 0 < b0 / (W * exp v + b0).
Proof. apply Rdiv_lt_0_compat; [exact Hb|apply den]. Qed.

Lemma half_le : ln (1/2) <= 0 <= ln 2.
Proof. destruct ln_facts as ((A & _) & B & _). lra. Qed.

Lemma clip_up a b x : a <= 0 -> 0 <= x -> 0 <= clip a b x \/ b < 0.
Proof. intros A X. unfold clip, Rmin, Rmax. repeat destruct (Rle_dec _ _); lra. Qed.

Lemma go_up r v : 0 <= r <= 1 -> sc + lo <= v <= sc + hi -> W * exp v + b0 <= G ->
  v <= moved r v <= sc + hi /\ W * exp (moved r v) + b0 <= G.
Proof.
  intros Hr Hv H. pose proof (est_up v H) as E. pose proof half_le as HL.
  assert (X : 0 <= r * est v <= est v) by nra.
  assert (M : v <= moved r v <= sc + hi /\ moved r v <= v + est v).
  { unfold moved, clip, Rmin, Rmax. repeat destruct (Rle_dec _ _); lra. }
  destruct M as (M & M2). split; [exact M|]. pose proof (weighted_mono _ _ M2) as P.
  pose proof (full_step v) as F. pose proof (share v) as S.
  assert ((W * exp v + b0 - G) * (b0 / (W * exp v + b0)) <= 0) by nra. lra.
Qed.
Lemma go_down r v : 0 <= r <= 1 -> sc + lo <= v <= sc + hi -> G <= W * exp v + b0 ->
  sc + lo <= moved r v <= v /\ G <= W * exp (moved r v) + b0.
Proof.
  intros Hr Hv H. pose proof (est_down v H) as E. pose proof half_le as HL.
  assert (X : est v <= r * est v <= 0) by nra.
  assert (M : sc + lo <= moved r v <= v /\ v + est v <= moved r v).
  { unfold moved, clip, Rmin, Rmax. repeat destruct (Rle_dec _ _); lra. }
  destruct M as (M & M2). split; [exact M|]. pose proof (weighted_mono _ _ M2) as P.
  pose proof (full_step v) as F. pose proof (share v) as S.
  assert (0 <= (W * exp v + b0 - G) * (b0 / (W * exp v + b0))) by nra. lra.
Qed.

Variable rate : nat -> R.
Hypothesis HR : forall n, 0 <= rate n <= 1.
Fixpoint lev (n : nat) : R := match n with O => sc | S k => moved (rate k) (lev k) end.

Lemma lev_up : W * exp sc + b0 <= G -> forall n, sc <= lev n <= sc + hi /\ W * exp (lev n) + b0 <= G.
Proof.
  intros H n. induction n as [|n (A & B)]; cbn [lev]; [split; [lra|exact H]|].
  destruct (go_up (rate n) (lev n) (HR n) ltac:(lra) B) as (C & E). split; [lra|exact E].
Qed.
Lemma lev_down : G <= W * exp sc + b0 -> forall n, sc + lo <= lev n <= sc /\ G <= W * exp (lev n) + b0.
Proof.
  intros H n. induction n as [|n (A & B)]; cbn [lev]; [split; [lra|exact H]|].
  destruct (go_down (rate n) (lev n) (HR n) ltac:(lra) B) as (C & E). split; [lra|exact E].
Qed.

(** The value between baseline and target. *)
Lemma lev_between n : 0 < W -> Rmin (exp sc) ((G - b0) / W) <= exp (lev n) <= Rmax (exp sc) ((G - b0) / W).
Proof.
  intro P. assert (Q : forall x, x * W <= G - b0 -> x <= (G - b0) / W).
  { intros x Hx. apply Rmult_le_reg_r with W; [exact P|]. replace ((G - b0) / W * W) with (G - b0) by (field; lra). exact Hx. }
  assert (Q' : forall x, G - b0 <= x * W -> (G - b0) / W <= x).
  { intros x Hx. apply Rmult_le_reg_r with W; [exact P|]. replace ((G - b0) / W * W) with (G - b0) by (field; lra). exact Hx. }
  destruct (Rle_dec (W * exp sc + b0) G) as [C|C].
  - destruct (lev_up C n) as ((A & _) & B). split.
    + apply Rle_trans with (exp sc); [apply Rmin_l|apply exp_mono; exact A].
    + apply Rle_trans with ((G - b0) / W); [apply Q; lra|apply Rmax_r].
  - destruct (lev_down ltac:(lra) n) as ((_ & A) & B). split.
    + apply Rle_trans with ((G - b0) / W); [apply Rmin_r|apply Q'; lra].
    + apply Rle_trans with (exp sc); [apply exp_mono; exact A|apply Rmax_l].
Qed.

(** ** The limit *)
Definition theta : R := clip (exp (sc + lo)) (exp (sc + hi)) ((G - b0) / W).

Lemma theta_up : 0 < W -> W * exp sc + b0 <= G -> exp sc <= theta <= exp (sc + hi) /\ W * theta + b0 <= G.
Proof.
  intros P C. assert (T : exp sc <= (G - b0) / W).
  { apply Rmult_le_reg_r with W; [exact P|]. replace ((G - b0) / W * W) with (G - b0) by (field; lra). lra. }
  pose proof (exp_mono (sc + lo) sc ltac:(lra)). pose proof (exp_mono sc (sc + hi) ltac:(lra)).
  assert (Z : exp sc <= theta <= exp (sc + hi) /\ theta <= (G - b0) / W).
  { unfold theta, clip, Rmin, Rmax. repeat destruct (Rle_dec _ _); lra. }
  destruct Z as (Z1 & Z2). split; [exact Z1|]. apply (Rmult_le_compat_l W) in Z2; [|lra].
  replace (W * ((G - b0) / W)) with (G - b0) in Z2 by (field; lra). lra.
Qed.
Lemma theta_down : 0 < W -> G <= W * exp sc + b0 -> exp (sc + lo) <= theta <= exp sc /\ G <= W * theta + b0.
Proof.
  intros P C. assert (T : (G - b0) / W <= exp sc).
  { apply Rmult_le_reg_r with W; [exact P|]. replace ((G - b0) / W * W) with (G - b0) by (field; lra). lra. }
  pose proof (exp_mono (sc + lo) sc ltac:(lra)). pose proof (exp_mono sc (sc + hi) ltac:(lra)).
  assert (Z : exp (sc + lo) <= theta <= exp sc /\ (G - b0) / W <= theta).
  { unfold theta, clip, Rmin, Rmax. repeat destruct (Rle_dec _ _); lra. }
  destruct Z as (Z1 & Z2). split; [exact Z1|]. apply (Rmult_le_compat_l W) in Z2; [|lra].
  replace (W * ((G - b0) / W)) with (G - b0) in Z2 by (field; lra). lra.
Qed.

Lemma many a k : 0 < k -> exists n, a <= INR n * k.
Proof.
  intro K. destruct (archimed (a / k)) as (Hn & _). exists (Z.abs_nat (up (a / k))). left.
  rewrite INR_IZR_INZ, Zabs2Nat.id_abs. assert (B : IZR (up (a / k)) <= IZR (Z.abs (up (a / k)))) by (apply IZR_le; lia).
  apply Rlt_le_trans with (IZR (up (a / k)) * k); [|apply Rmult_le_compat_r; lra].
  apply (Rmult_lt_compat_r k) in Hn; [|exact K]. replace (a / k * k) with a in Hn by (field; lra). exact Hn.
Qed.

Variable rho : R.
Hypothesis Hrho : 0 < rho.
Hypothesis HRr : forall n, rho <= rate n.

Lemma reach_up d : 0 < W -> W * exp sc + b0 <= G -> 0 < d -> exists N, forall n, (N <= n)%nat -> ln theta - d <= lev n <= ln theta.
Proof.
  intros P C Hd. destruct (theta_up P C) as ((T1 & T2) & T3).
  assert (Tp : 0 < theta) by (pose proof (exp_pos sc); lra).
  assert (Lt : ln theta <= sc + hi) by (rewrite <- (ln_exp (sc + hi)); apply ln_le_mono; assumption).
  assert (Ub : forall n, lev n <= ln theta).
  { intro n. destruct (lev_up C n) as ((A & A2) & B). apply exp_mono in A2.
    rewrite <- (ln_exp (lev n)). apply ln_le_mono; [apply exp_pos|]. unfold theta.
    assert (Q : exp (lev n) <= (G - b0) / W).
    { apply Rmult_le_reg_r with W; [exact P|]. replace ((G - b0) / W * W) with (G - b0) by (field; lra). lra. }
    unfold clip, Rmin, Rmax. repeat destruct (Rle_dec _ _); lra. }
  set (eta := ln ((W * theta + b0) / (W * (theta * exp (- d)) + b0))).
  assert (Ed : 0 < exp (- d) < 1) by (split; [apply exp_pos|rewrite <- exp_0; apply exp_increasing; lra]).
  assert (D0 : 0 < W * (theta * exp (- d)) + b0).
  { assert (0 < W * (theta * exp (- d))) by (apply Rmult_lt_0_compat; [exact P|apply Rmult_lt_0_compat; tauto]). lra. }
  assert (D1 : W * (theta * exp (- d)) + b0 < W * theta + b0).
  { assert (theta * exp (- d) < theta) by nra. assert (W * (theta * exp (- d)) < W * theta) by (apply Rmult_lt_compat_l; assumption). lra. }
  assert (He : 0 < eta).
  { unfold eta. rewrite <- ln_1. apply ln_increasing; [lra|]. apply Rmult_lt_reg_r with (W * (theta * exp (- d)) + b0); [exact D0|].
    replace ((W * theta + b0) / (W * (theta * exp (- d)) + b0) * (W * (theta * exp (- d)) + b0)) with (W * theta + b0) by (field; lra). lra. }
  set (kap := Rmin (rho * eta) (Rmin (ln 2) d)).
  assert (Hk : 0 < kap).
  { unfold kap. destruct ln_facts as ((L2 & _) & _). assert (0 < rho * eta) by (apply Rmult_lt_0_compat; assumption). repeat apply Rmin_glb_lt; assumption. }
  assert (Step : forall n, lev n <= ln theta - d -> lev n + kap <= lev (S n)).
  { intros n Hn. destruct (lev_up C n) as ((A & A2) & B). cbn [lev].
    assert (E : eta <= est (lev n)).
    { unfold eta, est. assert (W * exp (lev n) <= W * (theta * exp (- d))).
      { apply Rmult_le_compat_l; [lra|]. rewrite <- (exp_ln theta Tp), <- exp_plus. apply exp_mono. lra. }
      pose proof (den (lev n)). apply ln_le_mono; [apply Rdiv_lt_0_compat; lra|].
      unfold Rdiv. apply Rmult_le_compat; [lra|left; apply Rinv_0_lt_compat; exact D0|exact T3|]. apply Rinv_le_contravar; lra. }
    assert (X : rho * eta <= rate n * est (lev n)).
    { pose proof (HRr n). apply Rmult_le_compat; lra. }
    pose proof (Rmin_l (rho * eta) (Rmin (ln 2) d)) as K1. pose proof (Rmin_r (rho * eta) (Rmin (ln 2) d)) as K2.
    pose proof (Rmin_l (ln 2) d) as K3. pose proof (Rmin_r (ln 2) d) as K4. fold kap in K1, K2.
    pose proof half_le as HL. unfold moved. set (x := rate n * est (lev n)) in *. clearbody x kap eta.
    unfold clip, Rmin, Rmax in *. repeat destruct (Rle_dec _ _); lra. }
  assert (Mono : forall n, lev n <= lev (S n)).
  { intro n. destruct (lev_up C n) as ((A & A2) & B). cbn [lev]. apply (go_up (rate n) (lev n) (HR n)); [lra|exact B]. }
  assert (Grow : forall n, Rmin (ln theta - d) (sc + INR n * kap) <= lev n).
  { induction n as [|n IH].
    - cbn [INR lev]. eapply Rle_trans; [apply Rmin_r|]. lra.
    - destruct (Rle_dec (lev n) (ln theta - d)) as [L|L].
      + pose proof (Step n L) as S1. rewrite S_INR. unfold Rmin in *. repeat destruct (Rle_dec _ _); lra.
      + pose proof (Mono n). eapply Rle_trans; [apply Rmin_l|]. lra. }
  destruct (many (ln theta - sc) kap Hk) as (N & HN). exists N. intros n Hn. split; [|apply Ub].
  apply le_INR in Hn. assert (INR N * kap <= INR n * kap) by (apply Rmult_le_compat_r; lra).
  pose proof (Grow n) as Gn. unfold Rmin in Gn. destruct (Rle_dec _ _); lra.
Qed.

Lemma reach_down d : 0 < W -> G <= W * exp sc + b0 -> 0 < d -> exists N, forall n, (N <= n)%nat -> ln theta <= lev n <= ln theta + d.
Proof.
  intros P C Hd. destruct (theta_down P C) as ((T1 & T2) & T3).
  assert (Tp : 0 < theta) by (pose proof (exp_pos (sc + lo)); lra).
  assert (Lt : sc + lo <= ln theta) by (rewrite <- (ln_exp (sc + lo)); apply ln_le_mono; [apply exp_pos|assumption]).
  assert (Ub : forall n, ln theta <= lev n).
  { intro n. destruct (lev_down C n) as ((A & A2) & B). apply exp_mono in A.
    rewrite <- (ln_exp (lev n)). apply ln_le_mono; [exact Tp|]. unfold theta.
    assert (Q : (G - b0) / W <= exp (lev n)).
    { apply Rmult_le_reg_r with W; [exact P|]. replace ((G - b0) / W * W) with (G - b0) by (field; lra). lra. }
    unfold clip, Rmin, Rmax. repeat destruct (Rle_dec _ _); lra. }
  set (eta := ln ((W * (theta * exp d) + b0) / (W * theta + b0))).
  assert (Ed : 1 < exp d) by (rewrite <- exp_0; apply exp_increasing; lra).
  assert (D0 : 0 < W * theta + b0).
  { assert (0 < W * theta) by (apply Rmult_lt_0_compat; assumption). lra. }
  assert (D1 : W * theta + b0 < W * (theta * exp d) + b0).
  { assert (theta < theta * exp d) by nra. assert (W * theta < W * (theta * exp d)) by (apply Rmult_lt_compat_l; assumption). lra. }
  assert (He : 0 < eta).
  { unfold eta. rewrite <- ln_1. apply ln_increasing; [lra|]. apply Rmult_lt_reg_r with (W * theta + b0); [exact D0|].
    replace ((W * (theta * exp d) + b0) / (W * theta + b0) * (W * theta + b0)) with (W * (theta * exp d) + b0) by (field; lra). lra. }
  set (kap := Rmin (rho * eta) (Rmin (ln 2) d)).
  assert (Hk : 0 < kap).
  { unfold kap. destruct ln_facts as ((L2 & _) & _). assert (0 < rho * eta) by (apply Rmult_lt_0_compat; assumption). repeat apply Rmin_glb_lt; assumption. }
  assert (Step : forall n, ln theta + d <= lev n -> lev (S n) <= lev n - kap).
  { intros n Hn. destruct (lev_down C n) as ((A & A2) & B). cbn [lev].
    assert (E : est (lev n) <= - eta).
    { unfold eta, est. assert (W * (theta * exp d) <= W * exp (lev n)).
      { apply Rmult_le_compat_l; [lra|]. rewrite <- (exp_ln theta Tp) at 1. rewrite <- exp_plus. apply exp_mono. lra. }
      rewrite <- ln_Rinv by (apply Rdiv_lt_0_compat; lra). apply ln_le_mono; [apply Rdiv_lt_0_compat; [exact HG|apply den]|].
      replace (/ ((W * (theta * exp d) + b0) / (W * theta + b0))) with ((W * theta + b0) / (W * (theta * exp d) + b0)) by (field; lra).
      unfold Rdiv. apply Rmult_le_compat; [lra|left; apply Rinv_0_lt_compat, den|exact T3|]. apply Rinv_le_contravar; lra. }
    assert (X : rate n * est (lev n) <= - (rho * eta)).
    { pose proof (HRr n). pose proof (HR n). assert (rho * eta <= rate n * (- est (lev n))) by (apply Rmult_le_compat; lra). lra. }
    pose proof (Rmin_l (rho * eta) (Rmin (ln 2) d)) as K1. pose proof (Rmin_r (rho * eta) (Rmin (ln 2) d)) as K2.
    pose proof (Rmin_l (ln 2) d) as K3. pose proof (Rmin_r (ln 2) d) as K4. fold kap in K1, K2.
    pose proof half_le as HL. destruct ln_facts as (_ & L2 & _). unfold moved. set (x := rate n * est (lev n)) in *. clearbody x kap eta.
    unfold clip, Rmin, Rmax in *. repeat destruct (Rle_dec _ _); lra. }
  assert (Mono : forall n, lev (S n) <= lev n).
  { intro n. destruct (lev_down C n) as ((A & A2) & B). cbn [lev]. apply (go_down (rate n) (lev n) (HR n)); [lra|exact B]. }
  assert (Grow : forall n, lev n <= Rmax (ln theta + d) (sc - INR n * kap)).
  { induction n as [|n IH].
    - cbn [INR lev]. eapply Rle_trans; [|apply Rmax_r]. lra.
    - destruct (Rle_dec (ln theta + d) (lev n)) as [L|L].
      + pose proof (Step n L) as S1. rewrite S_INR. unfold Rmax in *. repeat destruct (Rle_dec _ _); lra.
      + pose proof (Mono n). eapply Rle_trans; [|apply Rmax_l]. lra. }
  destruct (many (sc - ln theta) kap Hk) as (N & HN). exists N. intros n Hn. split; [apply Ub|].
  apply le_INR in Hn. assert (INR N * kap <= INR n * kap) by (apply Rmult_le_compat_r; lra).
  pose proof (Grow n) as Gn. unfold Rmax in Gn. destruct (Rle_dec _ _); lra.
Qed.

Lemma limit eps : 0 < W -> 0 < eps -> exists N, forall n, (N <= n)%nat -> Rabs (exp (lev n) - theta) <= eps.
Proof.
  intros P He.
  assert (Tp : 0 < theta).
  { unfold theta. pose proof (exp_pos (sc + lo)). pose proof (exp_pos (sc + hi)). unfold clip, Rmin, Rmax. repeat destruct (Rle_dec _ _); lra. }
  assert (Q : 0 < eps / theta) by (apply Rdiv_lt_0_compat; assumption).
  set (d := ln (1 + eps / theta)). assert (Hd : 0 < d) by (unfold d; rewrite <- ln_1; apply ln_increasing; lra).
  assert (Ed : exp d = 1 + eps / theta) by (apply exp_ln; lra).
  assert (U : theta * exp d = theta + eps) by (rewrite Ed; field; lra).
  assert (V : theta - eps <= theta * exp (- d)).
  { rewrite exp_Ropp, Ed. apply Rmult_le_reg_r with (1 + eps / theta); [lra|].
    replace (theta * / (1 + eps / theta) * (1 + eps / theta)) with theta by (field; lra).
    replace ((theta - eps) * (1 + eps / theta)) with (theta - eps * (eps / theta)) by (field; lra). nra. }
  destruct (Rle_dec (W * exp sc + b0) G) as [C|C].
  - destruct (reach_up d P C Hd) as (N & HN). exists N. intros n Hn. destruct (HN n Hn) as (A & B).
    apply exp_mono in A, B. rewrite exp_ln in B by exact Tp. replace (ln theta - d) with (ln theta + - d) in A by ring.
    rewrite exp_plus, exp_ln in A by exact Tp. apply Rabs_le. lra.
  - destruct (reach_down d P ltac:(lra) Hd) as (N & HN). exists N. intros n Hn. destruct (HN n Hn) as (A & B).
    apply exp_mono in A, B. rewrite exp_ln in A by exact Tp. rewrite exp_plus, exp_ln in B by exact Tp. apply Rabs_le. lra.
Qed.
End Bin.
