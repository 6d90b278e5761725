(** The probability of one bin, pass after pass. *)
From Coq Require Import Reals Lra Lia Psatz.
From Verif.Model Require Import Train Link.
From Verif.Proofs Require Import LinkFacts PosteriorSteps.
Local Open Scope R_scope.

Notation prob := (unlink_func Logit).
Lemma prob_range v : 0 < prob v < 1. Proof. exact (unlink_range Logit v). Qed.
Lemma prob_mono v v' : v <= v' -> prob v <= prob v'.
Proof. intros [H| ->]; [left; apply (unlink_increasing Logit); exact H|right; reflexivity]. Qed.
Lemma prob_opp v : prob (- v) = 1 - prob v.
Proof. cbn [unlink_func]. pose proof (exp_pos v). rewrite Ropp_involutive, exp_Ropp. field. split; lra. Qed.
Lemma prob_odds v : prob v = (1 - prob v) * exp v.
Proof. cbn [unlink_func]. pose proof (exp_pos v). rewrite exp_Ropp. field. lra. Qed.
Lemma prob_ln Y N : 0 < Y -> 0 < N -> prob (ln (Y / N)) = Y / (Y + N).
Proof. intros A B. cbn [unlink_func]. rewrite exp_Ropp, exp_ln by (apply Rdiv_lt_0_compat; lra). field. lra. Qed.

(** One step, upwards: [Y] of the weight [W] has the class 1. *)
Section Up.
Variables (Y W : R) (est : R -> R -> R).
Hypothesis HY : 0 <= Y <= W.
Hypothesis Hup : forall A B, 0 <= A -> 0 <= B -> B <= A -> (A - B) / (A + 1) <= est A B /\ (0 < B -> est A B <= ln (A / B)).
Definition adv (v : R) : R := est (Y * (1 - prob v)) ((W - Y) * prob v).

Lemma parts v : 0 <= Y * (1 - prob v) <= W /\ 0 <= (W - Y) * prob v /\ Y * (1 - prob v) - (W - Y) * prob v = Y - W * prob v.
Proof.
  pose proof (prob_range v). split; [|split; [apply Rmult_le_pos; lra|ring]]. split; [apply Rmult_le_pos; lra|].
  assert (Y * (1 - prob v) <= Y * 1) by (apply Rmult_le_compat_l; lra). lra.
Qed.
Lemma adv_low v : W * prob v <= Y -> (Y - W * prob v) / (W + 1) <= adv v.
Proof.
  intro H. destruct (parts v) as ((P1 & P2) & P3 & P4). unfold adv.
  destruct (Hup (Y * (1 - prob v)) ((W - Y) * prob v) P1 P3 ltac:(lra)) as (E & _). eapply Rle_trans; [|exact E].
  rewrite P4. unfold Rdiv. apply Rmult_le_compat_l; [lra|]. apply Rinv_le_contravar; lra.
Qed.
Lemma adv_nonneg v : W * prob v <= Y -> 0 <= adv v.
Proof.
  intro H. eapply Rle_trans; [|exact (adv_low v H)]. apply Rmult_le_pos; [lra|left; apply Rinv_0_lt_compat; lra].
Qed.
Lemma adv_stays v r : 0 <= r <= 1 -> W * prob v <= Y -> W * prob (v + r * adv v) <= Y.
Proof.
  intros Hr H. destruct (parts v) as ((P1 & P2) & P3 & P4). pose proof (prob_range v) as PV. pose proof (adv_nonneg v H) as AN.
  destruct (Req_dec (W - Y) 0) as [Z|Z].
  - pose proof (prob_range (v + r * adv v)) as PR. assert (W * prob (v + r * adv v) <= W * 1) by (apply Rmult_le_compat_l; lra). lra.
  - assert (YN : 0 < (W - Y) * prob v) by (apply Rmult_lt_0_compat; lra).
    destruct (Hup (Y * (1 - prob v)) ((W - Y) * prob v) P1 P3 ltac:(lra)) as (_ & E). specialize (E YN). fold (adv v) in E.
    assert (Y0 : 0 < Y). { destruct (proj1 HY) as [Q|Q]; [exact Q|]. assert (0 < W * prob v) by (apply Rmult_lt_0_compat; lra). lra. }
    assert (EQ : v + ln (Y * (1 - prob v) / ((W - Y) * prob v)) = ln (Y / (W - Y))).
    { apply exp_inv. rewrite exp_plus, !exp_ln.
      - rewrite (prob_odds v) at 2. pose proof (exp_pos v). field. split; [lra|]. split; lra.
      - apply Rdiv_lt_0_compat; lra.
      - apply Rdiv_lt_0_compat; [apply Rmult_lt_0_compat; lra|exact YN]. }
    assert (S : r * adv v <= adv v) by nra.
    pose proof (prob_mono (v + r * adv v) (ln (Y / (W - Y))) ltac:(lra)) as M. rewrite prob_ln in M by lra.
    replace (Y + (W - Y)) with W in M by ring. apply (Rmult_le_compat_l W) in M; [|lra].
    replace (W * (Y / W)) with Y in M by (field; lra). exact M.
Qed.

Variables (sc : R) (rate : nat -> R).
Hypothesis HR : forall n, 0 <= rate n <= 1.
Hypothesis H0 : W * prob sc <= Y.
Fixpoint lvl (n : nat) : R := match n with O => sc | S n => lvl n + rate n * adv (lvl n) end.
Lemma lvl_below n : W * prob (lvl n) <= Y.
Proof. induction n as [|n IH]; [exact H0|]. cbn [lvl]. apply adv_stays; [apply HR|exact IH]. Qed.
Lemma lvl_grows n : lvl n <= lvl (S n).
Proof. cbn [lvl]. pose proof (adv_nonneg _ (lvl_below n)). pose proof (HR n). assert (0 <= rate n * adv (lvl n)) by (apply Rmult_le_pos; lra). lra. Qed.
Lemma lvl_later n k : lvl n <= lvl (n + k).
Proof. induction k as [|k IH]; [rewrite Nat.add_0_r; lra|]. rewrite Nat.add_succ_r. pose proof (lvl_grows (n + k)). lra. Qed.
Lemma lvl_from n : prob sc <= prob (lvl n).
Proof. apply prob_mono. exact (lvl_later 0 n). Qed.

Variable rho : R.
Hypothesis Hrho : 0 < rho.
Hypothesis HRr : forall n, rho <= rate n.
Lemma lvl_near eps : 0 < W -> 0 < eps -> exists N, forall n, (N <= n)%nat -> Y / W - eps <= prob (lvl n) <= Y / W.
Proof.
  intros HW He.
  assert (UP : forall n, prob (lvl n) <= Y / W).
  { intro n. apply (Rmult_le_reg_l W); [exact HW|]. replace (W * (Y / W)) with Y by (field; lra). apply lvl_below. }
  set (q := Y / W - eps).
  destruct (Rle_dec q 0) as [Q|Q].
  { exists 0%nat. intros n _. pose proof (prob_range (lvl n)). specialize (UP n). lra. }
  assert (Q1 : q < 1). { unfold q. assert (Y / W <= 1); [|lra]. apply (Rmult_le_reg_l W); [exact HW|]. replace (W * (Y / W)) with Y by (field; lra). lra. }
  set (dl := W * eps / (W + 1)). assert (Hd : 0 < rho * dl).
  { apply Rmult_lt_0_compat; [exact Hrho|]. apply Rdiv_lt_0_compat; [apply Rmult_lt_0_compat; lra|lra]. }
  set (t := ln (q / (1 - q))).
  assert (PT : prob t = q) by (unfold t; rewrite prob_ln by lra; field; lra).
  assert (ST : forall n, prob (lvl n) <= q -> lvl n + rho * dl <= lvl (S n)).
  { intros n H. cbn [lvl]. assert (E : dl <= adv (lvl n)).
    { eapply Rle_trans; [|apply adv_low, lvl_below]. unfold dl, Rdiv. apply Rmult_le_compat_r; [left; apply Rinv_0_lt_compat; lra|].
      assert (W * prob (lvl n) <= W * q) by (apply Rmult_le_compat_l; lra). unfold q in *. replace (W * (Y / W - eps)) with (Y - W * eps) in H1 by (field; lra). lra. }
    assert (0 < dl) by (apply Rdiv_lt_0_compat; [apply Rmult_lt_0_compat; lra|lra]).
    pose proof (HRr n). assert (rho * dl <= rate n * adv (lvl n)) by (apply Rmult_le_compat; lra). lra. }
  assert (GR : forall n, q <= prob (lvl n) \/ sc + INR n * (rho * dl) <= lvl n).
  { induction n as [|n IH]; [right; cbn [INR lvl]; lra|].
    destruct (Rle_dec (prob (lvl n)) q) as [H|H].
    - destruct IH as [IH|IH].
      + left. eapply Rle_trans; [exact IH|]. apply prob_mono, lvl_grows.
      + right. pose proof (ST n H). rewrite S_INR. lra.
    - left. pose proof (prob_mono _ _ (lvl_grows n)). lra. }
  destruct (many (t - sc) _ Hd) as (N & HN). exists N. intros n Hn. split; [|apply UP].
  destruct (GR n) as [G|G]; [exact G|]. rewrite <- PT. apply prob_mono. apply le_INR in Hn.
  assert (INR N * (rho * dl) <= INR n * (rho * dl)) by (apply Rmult_le_compat_r; lra). lra.
Qed.
End Up.

(** Both directions. *)
Section Both.
Variables (Y W : R) (est : R -> R -> R).
Hypothesis HY : 0 <= Y <= W.
Hypothesis Hup : forall A B, 0 <= A -> 0 <= B -> B <= A -> (A - B) / (A + 1) <= est A B /\ (0 < B -> est A B <= ln (A / B)).
Hypothesis Hdown : forall A B, 0 <= A -> 0 <= B -> A <= B -> (B - A) / (B + 1) <= - est A B /\ (0 < A -> - est A B <= ln (B / A)).
Variables (sc : R) (rate : nat -> R).
Hypothesis HR : forall n, 0 <= rate n <= 1.
Let est' (A B : R) : R := - est B A.
Lemma mirrored n : lvl (W - Y) W est' (- sc) rate n = - lvl Y W est sc rate n.
Proof.
  induction n as [|n IH]; [reflexivity|]. cbn [lvl]. rewrite IH. unfold adv, est'. rewrite prob_opp.
  replace (W - (W - Y)) with Y by ring. replace (1 - (1 - prob (lvl Y W est sc rate n))) with (prob (lvl Y W est sc rate n)) by ring. ring.
Qed.
Lemma mirrored_up : forall A B, 0 <= A -> 0 <= B -> B <= A -> (A - B) / (A + 1) <= est' A B /\ (0 < B -> est' A B <= ln (A / B)).
Proof. intros A B HA HB H. unfold est'. apply Hdown; assumption. Qed.

Lemma lvl_between n : 0 < W -> Rmin (prob sc) (Y / W) <= prob (lvl Y W est sc rate n) <= Rmax (prob sc) (Y / W).
Proof.
  intro HW. assert (E : W * (Y / W) = Y) by (field; lra).
  destruct (Rle_dec (W * prob sc) Y) as [H|H].
  - pose proof (lvl_below Y W est HY Hup sc rate HR H n) as A. pose proof (lvl_from Y W est HY Hup sc rate HR H n) as B.
    assert (prob (lvl Y W est sc rate n) <= Y / W) by (apply (Rmult_le_reg_l W); lra).
    split; [eapply Rle_trans; [apply Rmin_l|exact B]|eapply Rle_trans; [|apply Rmax_r]; assumption].
  - assert (H' : W * prob (- sc) <= W - Y) by (rewrite prob_opp; lra).
    pose proof (lvl_below (W - Y) W est' ltac:(lra) mirrored_up (- sc) rate HR H' n) as A. pose proof (lvl_from (W - Y) W est' ltac:(lra) mirrored_up (- sc) rate HR H' n) as B.
    rewrite mirrored, prob_opp in A, B. rewrite prob_opp in B.
    assert (Y / W <= prob (lvl Y W est sc rate n)) by (apply (Rmult_le_reg_l W); lra).
    split; [eapply Rle_trans; [apply Rmin_r|assumption]|eapply Rle_trans; [|apply Rmax_l]; lra].
Qed.
Lemma lvl_settles rho : 0 < rho -> (forall n, rho <= rate n) -> 0 < W -> forall eps, 0 < eps ->
  exists N, forall n, (N <= n)%nat -> Rabs (prob (lvl Y W est sc rate n) - Y / W) <= eps.
Proof.
  intros Hr HRr HW eps He. assert (E : (W - Y) / W = 1 - Y / W) by (field; lra).
  destruct (Rle_dec (W * prob sc) Y) as [H|H].
  - destruct (lvl_near Y W est HY Hup sc rate HR H rho Hr HRr eps HW He) as (N & HN). exists N. intros n Hn. specialize (HN n Hn). apply Rabs_le. lra.
  - assert (H' : W * prob (- sc) <= W - Y) by (rewrite prob_opp; lra).
    destruct (lvl_near (W - Y) W est' ltac:(lra) mirrored_up (- sc) rate HR H' rho Hr HRr eps HW He) as (N & HN). exists N. intros n Hn. specialize (HN n Hn).
    rewrite mirrored, prob_opp in HN. apply Rabs_le. lra.
Qed.
(** The distance from the share never grows. *)
Lemma lvl_closer n : (W * prob (lvl Y W est sc rate n) - Y) ^ 2 <= (W * prob sc - Y) ^ 2.
Proof.
  destruct (Rle_dec (W * prob sc) Y) as [H|H].
  - pose proof (lvl_below Y W est HY Hup sc rate HR H n) as A. pose proof (lvl_from Y W est HY Hup sc rate HR H n) as B.
    assert (W * prob sc <= W * prob (lvl Y W est sc rate n)) by (apply Rmult_le_compat_l; lra). nra.
  - assert (H' : W * prob (- sc) <= W - Y) by (rewrite prob_opp; lra).
    pose proof (lvl_below (W - Y) W est' ltac:(lra) mirrored_up (- sc) rate HR H' n) as A. pose proof (lvl_from (W - Y) W est' ltac:(lra) mirrored_up (- sc) rate HR H' n) as B.
    rewrite mirrored, prob_opp in A, B. rewrite prob_opp in B.
    assert (W * prob (lvl Y W est sc rate n) <= W * prob sc) by (apply Rmult_le_compat_l; lra). nra.
Qed.
End Both.
