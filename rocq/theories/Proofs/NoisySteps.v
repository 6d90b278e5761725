(** Repeated steps of one bin towards a target that is known only up to a deviation, as the
    negative binomial regressor makes them. *)
From Coq Require Import ZArith Reals Lra Lia Psatz.
From Verif.Model Require Import Train.
From Verif.Spec Require Import TrainSpec.
From Verif.Proofs Require Import TrainBounds TrainExamples MonotoneTrain PosteriorSteps.
Local Open Scope R_scope.

Lemma exp_le a b : a <= b -> exp a <= exp b.
Proof. intros [H| ->]; [left; apply exp_increasing; exact H|right; reflexivity]. Qed.
Lemma exp_le_inv a b : exp a <= exp b -> a <= b.
Proof. intro H. destruct (Rle_dec a b) as [L|L]; [exact L|]. pose proof (exp_increasing b a ltac:(lra)). lra. Qed.
Lemma le_ln a b : 0 < b -> exp a <= b -> a <= ln b.
Proof. intros P H. apply exp_le_inv. rewrite exp_ln by exact P. exact H. Qed.
Lemma ln_le_exp a b : 0 < a -> a <= exp b -> ln a <= b.
Proof. intros P H. apply exp_le_inv. rewrite exp_ln by exact P. exact H. Qed.

Section Bin.
(** [Y] and [W]: sums of weighted targets and of weights, [b0]: prior, [dl]: deviation of the
    estimates, [dm]: largest dispersion, [sc]: baseline, [lo] and [hi]: limits of the factor
    (logarithms), [top]: largest prediction for which [est] is known. *)
Variables (Y W b0 dl dm top sc lo hi : R) (est : R -> R).
Hypothesis HY : 0 <= Y.
Hypothesis HW : 0 < W.
Hypothesis Hb : 0 < b0.
Hypothesis Hdl : 0 <= dl < b0.
Hypothesis Hdm : 0 < dm.
Hypothesis Hlo : lo <= 0.
Hypothesis Hhi : 0 <= hi.
Definition from : R := (Y - dl * dm) / W.
Definition upto : R := (Y + dl * dm) / W.
Hypothesis Hsc : exp sc <= top.
Hypothesis Hup : upto <= top.
Hypothesis Hest : forall v, exp v <= top -> exists d s,
  0 < d <= dm /\ - dl <= s <= dl /\ exp (est v) = (Y + (b0 + s) * d) / (W * exp v + b0 * d).

Definition step (r v : R) : R := sc + clip lo hi (v - sc + clip (ln (1/2)) (ln 2) (r * est v)).

Lemma from_W : W * from = Y - dl * dm. Proof. unfold from. field. lra. Qed.
Lemma upto_W : W * upto = Y + dl * dm. Proof. unfold upto. field. lra. Qed.

(** The full step ends between the prediction and a value in the range. *)
Lemma full v : exp v <= top -> exists q, from <= q <= upto /\
  ((exp v <= q /\ exp v <= exp (v + est v) <= q) \/ (q <= exp v /\ q <= exp (v + est v) <= exp v)).
Proof.
  intro V. destruct (Hest v V) as (d & s & Hd & Hs & E). pose proof (exp_pos v) as P.
  rewrite exp_plus, E. set (p := exp v) in *. clearbody p.
  assert (DN : 0 < W * p + b0 * d) by (assert (0 < W * p) by (apply Rmult_lt_0_compat; assumption); assert (0 < b0 * d) by (apply Rmult_lt_0_compat; lra); lra).
  assert (SD : - (dl * dm) <= s * d <= dl * dm) by (split; nra).
  exists ((Y + s * d) / W). assert (Q : W * ((Y + s * d) / W) = Y + s * d) by (field; lra).
  set (q := (Y + s * d) / W) in *. clearbody q.
  split. { pose proof from_W. pose proof upto_W. split; apply Rmult_le_reg_l with W; lra. }
  replace (p * ((Y + (b0 + s) * d) / (W * p + b0 * d))) with (p * ((W * q + b0 * d) / (W * p + b0 * d))) by (rewrite Q; f_equal; f_equal; ring).
  assert (I : p * ((W * q + b0 * d) / (W * p + b0 * d)) = p + p * W * (q - p) / (W * p + b0 * d)) by (field; lra).
  assert (J : p * ((W * q + b0 * d) / (W * p + b0 * d)) = q - b0 * d * (q - p) / (W * p + b0 * d)) by (field; lra).
  assert (K : 0 < / (W * p + b0 * d)) by (apply Rinv_0_lt_compat; exact DN).
  assert (A : 0 < p * W * / (W * p + b0 * d)) by (apply Rmult_lt_0_compat; [apply Rmult_lt_0_compat|]; assumption).
  assert (B : 0 < b0 * d * / (W * p + b0 * d)) by (apply Rmult_lt_0_compat; [apply Rmult_lt_0_compat; lra|assumption]).
  assert (A' : p * W * (q - p) / (W * p + b0 * d) = p * W * / (W * p + b0 * d) * (q - p)) by (field; lra).
  assert (B' : b0 * d * (q - p) / (W * p + b0 * d) = b0 * d * / (W * p + b0 * d) * (q - p)) by (field; lra).
  rewrite A' in I. rewrite B' in J. set (T := p * ((W * q + b0 * d) / (W * p + b0 * d))) in *.
  set (x := p * W * / (W * p + b0 * d)) in *. set (z := b0 * d * / (W * p + b0 * d)) in *. clearbody T x z.
  destruct (Rle_dec p q) as [C|C]; [left|right]; (split; [lra|]); split; nra.
Qed.

(** A limited step. *)
Lemma partial r v : 0 <= r <= 1 -> sc + lo <= v <= sc + hi -> exp v <= top ->
  sc + lo <= step r v <= sc + hi /\ exists q, from <= q <= upto /\
  ((exp v <= q /\ exp v <= exp (step r v) <= q) \/ (q <= exp v /\ q <= exp (step r v) <= exp v)).
Proof.
  intros Hr Hv V. pose proof half_le as HL. split.
  { unfold step. pose proof (clip_bounds lo hi (v - sc + clip (ln (1/2)) (ln 2) (r * est v)) ltac:(lra)). lra. }
  destruct (full v V) as (q & Hq & [(A & B & C)|(A & B & C)]); exists q; (split; [exact Hq|]); [left|right]; (split; [exact A|]).
  - apply exp_le_inv in B. assert (X : 0 <= r * est v <= est v) by nra.
    assert (M : v <= step r v <= v + est v) by (unfold step, clip, Rmin, Rmax; repeat destruct (Rle_dec _ _); lra).
    destruct M as (M1 & M2). apply exp_le in M1, M2. lra.
  - apply exp_le_inv in C. assert (X : est v <= r * est v <= 0) by nra.
    assert (M : v + est v <= step r v <= v) by (unfold step, clip, Rmin, Rmax; repeat destruct (Rle_dec _ _); lra).
    destruct M as (M1 & M2). apply exp_le in M1, M2. lra.
Qed.

Variable rate : nat -> R.
Hypothesis HR : forall n, 0 <= rate n <= 1.
Fixpoint lvl (n : nat) : R := match n with O => sc | S k => step (rate k) (lvl k) end.

Lemma lvl_inv n : sc + lo <= lvl n <= sc + hi /\ Rmin (exp sc) from <= exp (lvl n) <= Rmax (exp sc) upto.
Proof.
  induction n as [|n (A & B)]; cbn [lvl].
  - split; [lra|]. split; [apply Rmin_l|apply Rmax_l].
  - assert (V : exp (lvl n) <= top) by (destruct B as (_ & B); unfold Rmax in B; destruct (Rle_dec _ _); lra).
    destruct (partial (rate n) (lvl n) (HR n) A V) as (C & q & Hq & E). split; [exact C|].
    unfold Rmin, Rmax in *. repeat destruct (Rle_dec _ _); lra.
Qed.
Lemma lvl_top n : exp (lvl n) <= top.
Proof. destruct (lvl_inv n) as (_ & _ & B). unfold Rmax in B. destruct (Rle_dec _ _); lra. Qed.

(** ** The limit *)
Definition low : R := clip (exp (sc + lo)) (exp (sc + hi)) from.
Definition high : R := clip (exp (sc + lo)) (exp (sc + hi)) upto.
Lemma ends : exp (sc + lo) <= low <= exp (sc + hi) /\ exp (sc + lo) <= high <= exp (sc + hi).
Proof. pose proof (exp_le (sc + lo) (sc + hi) ltac:(lra)). split; apply clip_bounds; assumption. Qed.
Lemma low_pos : 0 < low. Proof. pose proof (exp_pos (sc + lo)). destruct ends. lra. Qed.
Lemma high_pos : 0 < high. Proof. pose proof (exp_pos (sc + lo)). destruct ends. lra. Qed.

Variable rho : R.
Hypothesis Hrho : 0 < rho.
Hypothesis HRr : forall n, rho <= rate n.

Lemma ratio_pos x z : 0 < x < z -> 0 < ln ((W * z + b0 * dm) / (W * x + b0 * dm)).
Proof.
  intros (X & Z). assert (0 < W * x) by (apply Rmult_lt_0_compat; assumption). assert (0 < b0 * dm) by (apply Rmult_lt_0_compat; assumption).
  assert (W * x < W * z) by (apply Rmult_lt_compat_l; assumption).
  rewrite <- ln_1. apply ln_increasing; [lra|]. apply Rmult_lt_reg_r with (W * x + b0 * dm); [lra|].
  replace ((W * z + b0 * dm) / (W * x + b0 * dm) * (W * x + b0 * dm)) with (W * z + b0 * dm) by (field; lra). lra.
Qed.
Lemma ratio_d x z d : 0 < x < z -> 0 < d <= dm -> (W * z + b0 * dm) / (W * x + b0 * dm) <= (W * z + b0 * d) / (W * x + b0 * d).
Proof.
  intros (X & Z) D. assert (0 < W * x) by (apply Rmult_lt_0_compat; assumption). assert (0 < b0 * d) by (apply Rmult_lt_0_compat; lra).
  assert (b0 * d <= b0 * dm) by (apply Rmult_le_compat_l; lra). assert (W * x < W * z) by (apply Rmult_lt_compat_l; assumption).
  set (e := b0 * d) in *. set (e' := b0 * dm) in *. set (x' := W * x) in *. set (z' := W * z) in *. clearbody e e' x' z'.
  apply Rmult_le_reg_r with ((x' + e') * (x' + e)); [apply Rmult_lt_0_compat; lra|].
  replace ((z' + e') / (x' + e') * ((x' + e') * (x' + e))) with ((z' + e') * (x' + e)) by (field; lra).
  replace ((z' + e) / (x' + e) * ((x' + e') * (x' + e))) with ((z' + e) * (x' + e')) by (field; lra). nra.
Qed.

Lemma falls_below d : 0 < d -> exists N, forall n, (N <= n)%nat -> lvl n <= ln high + d.
Proof.
  intro Hd. destruct ends as (_ & E1 & E2). pose proof high_pos as HP0.
  assert (ED : 1 < exp d) by (rewrite <- exp_0; apply exp_increasing; lra).
  assert (XZ : 0 < high < high * exp d) by nra.
  pose proof (ratio_pos _ _ XZ) as He. set (eta := ln ((W * (high * exp d) + b0 * dm) / (W * high + b0 * dm))) in *.
  set (kap := Rmin (rho * eta) (ln 2)).
  assert (Hk : 0 < kap).
  { unfold kap. destruct ln_facts as ((L2 & _) & _). assert (0 < rho * eta) by (apply Rmult_lt_0_compat; assumption). apply Rmin_glb_lt; assumption. }
  assert (Stay : forall n, lvl n <= ln high + d -> lvl (S n) <= ln high + d).
  { intros n H. destruct (lvl_inv n) as (A & _). cbn [lvl]. destruct (partial (rate n) (lvl n) (HR n) A (lvl_top n)) as ((_ & C) & q & Hq & E).
    destruct E as [(_ & _ & E)|(_ & _ & E)]; [|apply exp_le_inv in E; lra].
    assert (step (rate n) (lvl n) <= ln high); [|lra]. apply le_ln; [exact HP0|]. apply exp_le in C.
    unfold high, clip, Rmin, Rmax. repeat destruct (Rle_dec _ _); lra. }
  assert (Step : forall n, ln high + d < lvl n -> lvl (S n) <= Rmax (lvl n - kap) (ln high)).
  { intros n H. destruct (lvl_inv n) as (A & _). cbn [lvl].
    assert (HU : upto <= high).
    { assert (high < exp (sc + hi)).
      { apply Rlt_le_trans with (exp (lvl n)); [|apply exp_le; lra]. rewrite <- (exp_ln high HP0) at 1. apply exp_increasing. lra. }
      unfold high, clip, Rmin, Rmax in *. repeat destruct (Rle_dec _ _); lra. }
    assert (P : high * exp d <= exp (lvl n)).
    { rewrite <- (exp_ln high HP0) at 1. rewrite <- exp_plus. apply exp_le. lra. }
    destruct (Hest (lvl n) (lvl_top n)) as (dd & s & Hdd & Hs & EE).
    assert (E : est (lvl n) <= - eta).
    { apply exp_le_inv. rewrite EE, exp_Ropp. unfold eta.
      assert (0 < W * high) by (apply Rmult_lt_0_compat; assumption). assert (0 < b0 * dm) by (apply Rmult_lt_0_compat; assumption). assert (0 < b0 * dd) by (apply Rmult_lt_0_compat; lra).
      assert (W * high < W * (high * exp d)) by (apply Rmult_lt_compat_l; lra).
      assert (W * (high * exp d) <= W * exp (lvl n)) by (apply Rmult_le_compat_l; lra).
      rewrite exp_ln by (apply Rdiv_lt_0_compat; lra).
      assert (U : Y + s * dd <= W * high).
      { pose proof upto_W. assert (s * dd <= dl * dm) by nra. assert (W * upto <= W * high) by (apply Rmult_le_compat_l; lra). lra. }
      pose proof (ratio_d high (high * exp d) dd XZ Hdd) as RD.
      apply Rle_trans with ((W * high + b0 * dd) / (W * (high * exp d) + b0 * dd)).
      - unfold Rdiv. apply Rle_trans with ((W * high + b0 * dd) * / (W * exp (lvl n) + b0 * dd)).
        + apply Rmult_le_compat_r; [left; apply Rinv_0_lt_compat; lra|lra].
        + apply Rmult_le_compat_l; [lra|]. apply Rinv_le_contravar; lra.
      - replace ((W * high + b0 * dd) / (W * (high * exp d) + b0 * dd)) with (/ ((W * (high * exp d) + b0 * dd) / (W * high + b0 * dd))) by (field; lra).
        apply Rinv_le_contravar; [apply Rdiv_lt_0_compat; lra|exact RD]. }
    assert (X : rate n * est (lvl n) <= - (rho * eta)).
    { pose proof (HRr n). pose proof (HR n). assert (rho * eta <= rate n * (- est (lvl n))) by (apply Rmult_le_compat; lra). lra. }
    pose proof (Rmin_l (rho * eta) (ln 2)) as K1. pose proof (Rmin_r (rho * eta) (ln 2)) as K2. fold kap in K1, K2.
    assert (SL : sc + lo <= ln high) by (apply exp_le_inv; rewrite exp_ln by exact HP0; exact E1).
    pose proof half_le as HL. destruct ln_facts as (_ & L2 & _). unfold step. set (x := rate n * est (lvl n)) in *. clearbody x kap eta.
    unfold clip, Rmin, Rmax in *. repeat destruct (Rle_dec _ _); lra. }
  assert (Grow : forall n, lvl n <= Rmax (ln high + d) (sc - INR n * kap)).
  { induction n as [|n IH].
    - cbn [INR lvl]. eapply Rle_trans; [|apply Rmax_r]. lra.
    - destruct (Rle_dec (lvl n) (ln high + d)) as [L|L].
      + eapply Rle_trans; [exact (Stay n L)|apply Rmax_l].
      + pose proof (Step n ltac:(lra)) as S1. rewrite S_INR. unfold Rmax in *. repeat destruct (Rle_dec _ _); lra. }
  destruct (many (sc - ln high) kap Hk) as (N & HN). exists N. intros n Hn.
  apply le_INR in Hn. assert (INR N * kap <= INR n * kap) by (apply Rmult_le_compat_r; lra).
  pose proof (Grow n) as Gn. unfold Rmax in Gn. destruct (Rle_dec _ _); lra.
Qed.

Lemma rises_above d : 0 < d -> exists N, forall n, (N <= n)%nat -> ln low - d <= lvl n.
Proof.
  intro Hd. destruct ends as ((E1 & E2) & _). pose proof low_pos as HP0.
  assert (ED : 0 < exp (- d) < 1) by (split; [apply exp_pos|rewrite <- exp_0; apply exp_increasing; lra]).
  assert (XZ : 0 < low * exp (- d) < low) by (split; nra).
  pose proof (ratio_pos _ _ XZ) as He. set (eta := ln ((W * low + b0 * dm) / (W * (low * exp (- d)) + b0 * dm))) in *.
  set (kap := Rmin (rho * eta) (ln 2)).
  assert (Hk : 0 < kap).
  { unfold kap. destruct ln_facts as ((L2 & _) & _). assert (0 < rho * eta) by (apply Rmult_lt_0_compat; assumption). apply Rmin_glb_lt; assumption. }
  assert (Stay : forall n, ln low - d <= lvl n -> ln low - d <= lvl (S n)).
  { intros n H. destruct (lvl_inv n) as (A & _). cbn [lvl]. destruct (partial (rate n) (lvl n) (HR n) A (lvl_top n)) as ((C & _) & q & Hq & E).
    destruct E as [(_ & E & _)|(_ & E & _)]; [apply exp_le_inv in E; lra|].
    assert (ln low <= step (rate n) (lvl n)); [|lra]. apply ln_le_exp; [exact HP0|]. apply exp_le in C.
    unfold low, clip, Rmin, Rmax. repeat destruct (Rle_dec _ _); lra. }
  assert (Step : forall n, lvl n < ln low - d -> Rmin (lvl n + kap) (ln low) <= lvl (S n)).
  { intros n H. destruct (lvl_inv n) as (A & _). cbn [lvl].
    assert (HU : low <= from).
    { assert (exp (sc + lo) < low).
      { apply Rle_lt_trans with (exp (lvl n)); [apply exp_le; lra|]. rewrite <- (exp_ln low HP0). apply exp_increasing. lra. }
      unfold low, clip, Rmin, Rmax in *. repeat destruct (Rle_dec _ _); lra. }
    assert (P : exp (lvl n) <= low * exp (- d)).
    { rewrite <- (exp_ln low HP0) at 1. rewrite <- exp_plus. apply exp_le. lra. }
    destruct (Hest (lvl n) (lvl_top n)) as (dd & s & Hdd & Hs & EE).
    assert (E : eta <= est (lvl n)).
    { apply exp_le_inv. rewrite EE. unfold eta. pose proof (exp_pos (lvl n)) as EP.
      assert (0 < W * exp (lvl n)) by (apply Rmult_lt_0_compat; assumption). assert (0 < b0 * dm) by (apply Rmult_lt_0_compat; assumption). assert (0 < b0 * dd) by (apply Rmult_lt_0_compat; lra).
      assert (W * (low * exp (- d)) < W * low) by (apply Rmult_lt_compat_l; lra).
      assert (W * exp (lvl n) <= W * (low * exp (- d))) by (apply Rmult_le_compat_l; lra).
      rewrite exp_ln by (apply Rdiv_lt_0_compat; lra).
      assert (U : W * low <= Y + s * dd).
      { pose proof from_W. assert (- (dl * dm) <= s * dd) by nra. assert (W * low <= W * from) by (apply Rmult_le_compat_l; lra). lra. }
      eapply Rle_trans; [exact (ratio_d _ _ dd XZ Hdd)|].
      unfold Rdiv. apply Rmult_le_compat; [lra|left; apply Rinv_0_lt_compat; lra|lra|apply Rinv_le_contravar; lra]. }
    assert (X : rho * eta <= rate n * est (lvl n)) by (pose proof (HRr n); apply Rmult_le_compat; lra).
    pose proof (Rmin_l (rho * eta) (ln 2)) as K1. pose proof (Rmin_r (rho * eta) (ln 2)) as K2. fold kap in K1, K2.
    assert (SL : ln low <= sc + hi) by (apply exp_le_inv; rewrite exp_ln by exact HP0; exact E2).
    pose proof half_le as HL. unfold step. set (x := rate n * est (lvl n)) in *. clearbody x kap eta.
    unfold clip, Rmin, Rmax in *. repeat destruct (Rle_dec _ _); lra. }
  assert (Grow : forall n, Rmin (ln low - d) (sc + INR n * kap) <= lvl n).
  { induction n as [|n IH].
    - cbn [INR lvl]. eapply Rle_trans; [apply Rmin_r|]. lra.
    - destruct (Rle_dec (ln low - d) (lvl n)) as [L|L].
      + eapply Rle_trans; [apply Rmin_l|exact (Stay n L)].
      + pose proof (Step n ltac:(lra)) as S1. rewrite S_INR. unfold Rmin in *. repeat destruct (Rle_dec _ _); lra. }
  destruct (many (ln low - sc) kap Hk) as (N & HN). exists N. intros n Hn.
  apply le_INR in Hn. assert (INR N * kap <= INR n * kap) by (apply Rmult_le_compat_r; lra).
  pose proof (Grow n) as Gn. unfold Rmin in Gn. destruct (Rle_dec _ _); lra.
Qed.

Lemma ends_up t eps : 0 < t -> 0 < eps -> exists d, 0 < d /\ t * exp d <= t + eps /\ t - eps <= t * exp (- d).
Proof.
  intros Ht He. assert (Q : 0 < eps / t) by (apply Rdiv_lt_0_compat; assumption).
  exists (ln (1 + eps / t)). assert (Ed : exp (ln (1 + eps / t)) = 1 + eps / t) by (apply exp_ln; lra). split; [rewrite <- ln_1; apply ln_increasing; lra|]. split.
  - rewrite Ed. right. field. lra.
  - rewrite exp_Ropp, Ed. apply Rmult_le_reg_r with (1 + eps / t); [lra|].
    replace (t * / (1 + eps / t) * (1 + eps / t)) with t by (field; lra).
    replace ((t - eps) * (1 + eps / t)) with (t - eps * (eps / t)) by (field; lra). nra.
Qed.

Lemma settles eps : 0 < eps -> exists N, forall n, (N <= n)%nat -> low - eps <= exp (lvl n) <= high + eps.
Proof.
  intro He. destruct (ends_up low eps low_pos He) as (d1 & D1 & _ & A). destruct (ends_up high eps high_pos He) as (d2 & D2 & B & _).
  destruct (rises_above d1 D1) as (N1 & H1). destruct (falls_below d2 D2) as (N2 & H2).
  exists (max N1 N2). intros n Hn. specialize (H1 n ltac:(lia)). specialize (H2 n ltac:(lia)). apply exp_le in H1, H2.
  replace (ln low - d1) with (ln low + - d1) in H1 by ring. rewrite exp_plus, exp_ln in H1 by exact low_pos. rewrite exp_plus, exp_ln in H2 by exact high_pos. lra.
Qed.
End Bin.
