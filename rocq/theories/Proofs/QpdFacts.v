(** Facts about the Johnson quantile-parametrised distributions. *)
From Coq Require Import List Bool Reals Lra Lia.
From Verif.Model Require Import Train Qpd.
From Verif.Spec Require Import QpdSpec.
From Verif.Proofs Require Import TrainFacts TrainExamples LinkFacts.
Import ListNotations.
Local Open Scope R_scope.

Lemma sinh_opp : forall x, sinh (- x) = - sinh x.
Proof. intro x. unfold sinh. rewrite Ropp_involutive. field. Qed.
Lemma cosh_pos : forall x, 0 < cosh x.
Proof. intro x. unfold cosh. pose proof (exp_pos x). pose proof (exp_pos (- x)). lra. Qed.
Lemma sinh_pos : forall x, 0 < x -> 0 < sinh x.
Proof. intros x Hx. rewrite <- sinh_0. now apply sinh_lt. Qed.
Lemma sinh_neg : forall x, x < 0 -> sinh x < 0.
Proof. intros x Hx. rewrite <- sinh_0. now apply sinh_lt. Qed.
Lemma sinh_double : forall x, sinh (2 * x) = 2 * sinh x * cosh x.
Proof.
  intro x. unfold sinh, cosh. replace (2 * x) with (x + x) by ring.
  replace (- (x + x)) with (- x + - x) by ring. rewrite !exp_plus. field.
Qed.
Lemma arcsinh_opp : forall x, arcsinh (- x) = - arcsinh x.
Proof. intro x. rewrite <- (sinh_arcsinh x) at 1. rewrite <- sinh_opp. apply arcsinh_sinh. Qed.
Lemma arcsinh_pos : forall x, 0 < x -> 0 < arcsinh x.
Proof. intros x Hx. rewrite <- arcsinh_0. now apply arcsinh_lt. Qed.

Lemma arccosh_pos : forall r, 1 < r -> 0 < arccosh r.
Proof.
  intros r Hr. unfold arccosh. rewrite <- ln_1. apply ln_increasing; [lra|].
  pose proof (sqrt_pos (r * r - 1)). lra.
Qed.
Lemma arccosh_1 : arccosh 1 = 0.
Proof. unfold arccosh. replace (1 * 1 - 1) with 0 by ring. rewrite sqrt_0, Rplus_0_r. apply ln_1. Qed.
Lemma cosh_arccosh : forall r, 1 <= r -> cosh (arccosh r) = r.
Proof.
  intros r Hr. unfold cosh, arccosh.
  assert (P : 0 <= r * r - 1) by nra.
  pose proof (sqrt_pos (r * r - 1)) as S1. pose proof (sqrt_sqrt _ P) as S2.
  set (s := sqrt (r * r - 1)) in *.
  rewrite exp_Ropp, exp_ln by lra.
  assert (E : / (r + s) = r - s). { apply Rmult_eq_reg_l with (r + s); [|lra]. rewrite Rinv_r by lra. nra. }
  rewrite E. field.
Qed.

(** The base distributions *)
Section Base.
Variable d : dist.
Hypothesis BD : base_distribution d.
Lemma ppf_increasing : forall p q, 0 < p -> p < q -> q < 1 -> d_ppf d p < d_ppf d q.
Proof.
  intros p q Hp Hpq Hq. destruct (Rlt_or_le (d_ppf d p) (d_ppf d q)) as [|E]; [assumption|exfalso].
  assert (d_cdf d (d_ppf d q) <= d_cdf d (d_ppf d p)).
  { destruct E as [E|E]; [left; now apply (cdf_increasing d BD)|right; now rewrite E]. }
  rewrite !(cdf_of_ppf d BD) in H by lra. lra.
Qed.
Lemma ppf_half : d_ppf d (1 / 2) = 0.
Proof. pose proof (symmetric d BD (1 / 2) ltac:(lra)) as S. replace (1 - 1 / 2) with (1 / 2) in S by lra. lra. Qed.
Lemma width_pos : forall alpha, 0 < alpha < 1 / 2 -> 0 < d_ppf d (1 - alpha).
Proof. intros a Ha. rewrite <- ppf_half. apply ppf_increasing; lra. Qed.
Lemma ppf_alpha : forall alpha, 0 < alpha < 1 / 2 -> d_ppf d alpha = - d_ppf d (1 - alpha).
Proof. intros a Ha. pose proof (symmetric d BD a ltac:(lra)). lra. Qed.
End Base.

Lemma logit_increasing : forall p q, 0 < p -> p < q -> q < 1 -> ln (p / (1 - p)) < ln (q / (1 - q)).
Proof.
  intros p q Hp Hpq Hq. apply ln_increasing.
  - apply Rdiv_lt_0_compat; lra.
  - apply Rmult_lt_reg_r with ((1 - p) * (1 - q)); [apply Rmult_lt_0_compat; lra|].
    replace (p / (1 - p) * ((1 - p) * (1 - q))) with (p * (1 - q)) by (field; lra).
    replace (q / (1 - q) * ((1 - p) * (1 - q))) with (q * (1 - p)) by (field; lra). lra.
Qed.
Definition sigmoid (x : R) : R := 1 / (1 + exp (- x)).
Lemma sigmoid_range : forall x, 0 < sigmoid x < 1.
Proof.
  intro x. unfold sigmoid. pose proof (exp_pos (- x)). split.
  - apply Rdiv_lt_0_compat; lra.
  - apply Rmult_lt_reg_r with (1 + exp (- x)); [lra|]. unfold Rdiv. rewrite Rmult_assoc, Rinv_l by lra. lra.
Qed.
Lemma sigmoid_increasing : forall x y, x < y -> sigmoid x < sigmoid y.
Proof.
  intros x y H. unfold sigmoid, Rdiv. rewrite !Rmult_1_l. pose proof (exp_pos (- x)). pose proof (exp_pos (- y)).
  apply Rinv_lt_contravar; [apply Rmult_lt_0_compat; lra|]. apply Rplus_lt_compat_l, exp_increasing. lra.
Qed.
Lemma sigmoid_odds : forall x, sigmoid x / (1 - sigmoid x) = exp x.
Proof.
  intro x. unfold sigmoid. pose proof (exp_pos (- x)). pose proof (exp_pos x).
  assert (exp (- x) * exp x = 1) by (rewrite <- exp_plus; replace (- x + x) with 0 by ring; apply exp_0).
  apply Rmult_eq_reg_r with (exp (- x)); [|lra]. rewrite (Rmult_comm (exp x)), H1. field. lra.
Qed.
Lemma sigmoid_logit : forall p, 0 < p < 1 -> sigmoid (ln (p / (1 - p))) = p.
Proof.
  intros p Hp. unfold sigmoid. rewrite exp_Ropp, exp_ln by (apply Rdiv_lt_0_compat; lra). field. lra.
Qed.
Lemma logit_sigmoid : forall x, ln (sigmoid x / (1 - sigmoid x)) = x.
Proof. intro x. rewrite sigmoid_odds. apply ln_exp. Qed.
Lemma logit_symmetric : forall p, 0 < p < 1 -> ln ((1 - p) / (1 - (1 - p))) = - ln (p / (1 - p)).
Proof.
  intros p Hp. rewrite <- ln_Rinv by (apply Rdiv_lt_0_compat; lra). f_equal. field. lra.
Qed.

Lemma logistic_base : base_distribution logistic.
Proof.
  split; cbn.
  - exact sigmoid_range.
  - exact sigmoid_increasing.
  - exact sigmoid_logit.
  - exact logit_sigmoid.
  - exact logit_symmetric.
Qed.

Lemma sinh_logistic_base : forall shape, base_distribution (sinh_logistic shape).
Proof.
  intro s.
  assert (Hs : (0 < s /\ Rltb 0 s = true) \/ (s < 0 /\ Rltb 0 s = false /\ Rltb s 0 = true) \/ (s = 0 /\ Rltb 0 s = false /\ Rltb s 0 = false)).
  { destruct (Rtotal_order s 0) as [H|[H|H]].
    - right; left. split; [assumption|split; [apply Rltb_false; lra|apply Rltb_iff; lra]].
    - right; right. split; [assumption|split; apply Rltb_false; lra].
    - left. split; [assumption|apply Rltb_iff; lra]. }
  assert (C : forall x, sinh_cdf s x = sigmoid (4 * (if Rltb 0 s then sinh (s * x) / s else if Rltb s 0 then arcsinh (s * x) / s else x))).
  { intro x. unfold sinh_cdf, sigmoid. do 3 f_equal. ring. }
  split; cbn [d_ppf d_cdf sinh_logistic].
  - intro x. rewrite C. apply sigmoid_range.
  - intros x y H. rewrite !C. apply sigmoid_increasing, Rmult_lt_compat_l; [lra|].
    destruct Hs as [[Hs E]|[[Hs [E1 E2]]|[Hs [E1 E2]]]].
    + rewrite E. apply Rmult_lt_compat_r; [now apply Rinv_0_lt_compat|]. apply sinh_lt. now apply Rmult_lt_compat_l.
    + rewrite E1, E2. unfold Rdiv. rewrite !(Rmult_comm _ (/ s)). apply Rmult_lt_gt_compat_neg_l; [now apply Rinv_lt_0_compat|].
      apply arcsinh_lt. now apply Rmult_lt_gt_compat_neg_l.
    + now rewrite E1, E2.
  - intros p Hp. rewrite C. unfold sinh_ppf. set (g := ln (p / (1 - p))).
    transitivity (sigmoid g); [|now apply sigmoid_logit]. f_equal.
    destruct Hs as [[Hs E]|[[Hs [E1 E2]]|[Hs [E1 E2]]]].
    + rewrite !E. replace (s * (arcsinh (s * (1 / 4 * g)) / s)) with (arcsinh (s * (1 / 4 * g))) by (field; lra).
      rewrite sinh_arcsinh. field. lra.
    + rewrite !E1, !E2. replace (s * (sinh (s * (1 / 4 * g)) / s)) with (sinh (s * (1 / 4 * g))) by (field; lra).
      rewrite arcsinh_sinh. field. lra.
    + rewrite !E1, !E2. field.
  - intro x. rewrite C. unfold sinh_ppf. rewrite logit_sigmoid.
    destruct Hs as [[Hs E]|[[Hs [E1 E2]]|[Hs [E1 E2]]]].
    + rewrite !E. replace (s * (1 / 4 * (4 * (sinh (s * x) / s)))) with (sinh (s * x)) by (field; lra).
      rewrite arcsinh_sinh. field. lra.
    + rewrite !E1, !E2. replace (s * (1 / 4 * (4 * (arcsinh (s * x) / s)))) with (arcsinh (s * x)) by (field; lra).
      rewrite sinh_arcsinh. field. lra.
    + rewrite !E1, !E2. field.
  - intros p Hp. unfold sinh_ppf. rewrite logit_symmetric by assumption. set (g := ln (p / (1 - p))).
    replace (s * (1 / 4 * - g)) with (- (s * (1 / 4 * g))) by ring.
    rewrite arcsinh_opp, sinh_opp.
    destruct Hs as [[Hs E]|[[Hs [E1 E2]]|[Hs [E1 E2]]]].
    + rewrite !E. field. lra.
    + rewrite !E1, !E2. field. lra.
    + rewrite !E1, !E2. ring.
Qed.

(** The density of the sinh-logistic distribution is the derivative of its cdf. *)
Lemma derivable_eq : forall f x a b, derivable_pt_lim f x a -> a = b -> derivable_pt_lim f x b.
Proof. intros f x a b H E. now subst. Qed.
Lemma sigmoid_deriv : forall x, derivable_pt_lim sigmoid x (1 / (4 * cosh (x / 2) ^ 2)).
Proof.
  intro x.
  assert (D : derivable_pt_lim (fun y => exp (- y)) x (- exp (- x))).
  { apply derivable_eq with (exp (- x) * (- 1)); [|ring].
    apply (derivable_pt_lim_comp (fun y => - y) exp); [|apply derivable_pt_lim_exp].
    apply derivable_eq with (- (1)); [|ring]. apply (derivable_pt_lim_opp id). apply derivable_pt_lim_id. }
  pose proof (exp_pos (- x)) as P.
  unfold sigmoid.
  apply derivable_eq with ((0 * (1 + exp (- x)) - (0 + - exp (- x)) * 1) / (Rsqr (1 + exp (- x)))).
  - apply (derivable_pt_lim_div (fun _ => 1) (fun y => 1 + exp (- y))); [apply derivable_pt_lim_const| |lra].
    apply (derivable_pt_lim_plus (fun _ => 1) (fun y => exp (- y))); [apply derivable_pt_lim_const|exact D].
  - unfold cosh, Rsqr.
    assert (E1 : exp (- x) = exp (- (x / 2)) * exp (- (x / 2))) by (rewrite <- exp_plus; f_equal; field).
    assert (E2 : exp (x / 2) * exp (- (x / 2)) = 1) by (rewrite <- exp_plus; replace (x / 2 + - (x / 2)) with 0 by ring; apply exp_0).
    pose proof (exp_pos (- (x / 2))) as P1. pose proof (exp_pos (x / 2)) as P2.
    set (a := exp (- (x / 2))) in *. set (b := exp (x / 2)) in *. rewrite E1.
    assert (B : b = / a) by (apply Rmult_eq_reg_r with a; [rewrite E2; field; lra|lra]).
    rewrite B. field. split; nra.
Qed.
Lemma sinh_density : forall s x, derivable_pt_lim (sinh_cdf s) x (sinh_pdf s x).
Proof.
  intros s x. unfold sinh_pdf.
  assert (K : forall (g : R -> R) g', derivable_pt_lim g x g' ->
    derivable_pt_lim (fun y => 1 / (1 + exp (-4 * g y))) x (g' / cosh (2 * g x) ^ 2)).
  { intros g g' Hg. apply derivable_eq with (1 / (4 * cosh ((4 * g x) / 2) ^ 2) * (4 * g')).
    - assert (E : forall y, sigmoid (4 * g y) = 1 / (1 + exp (-4 * g y))) by (intro y; unfold sigmoid; do 3 f_equal; ring).
      intros eps He. destruct ((derivable_pt_lim_comp (fun y => 4 * g y) sigmoid x _ _ (derivable_pt_lim_scal g 4 x g' Hg) (sigmoid_deriv _)) eps He) as [dlt Hd].
      exists dlt. intros h H1 H2. rewrite <- !E. apply Hd; assumption.
    - replace (4 * g x / 2) with (2 * g x) by field. field. apply Rgt_not_eq, cosh_pos. }
  assert (Lin : derivable_pt_lim (fun y => s * y) x s).
  { apply derivable_eq with (s * 1); [|ring]. apply (derivable_pt_lim_scal id). apply derivable_pt_lim_id. }
  destruct (Rtotal_order s 0) as [H|[H|H]].
  - rewrite (proj2 (Rltb_false 0 s)), (proj2 (Rltb_iff s 0)) by lra.
    apply derivable_eq with ((/ sqrt ((s * x) ^ 2 + 1) * s * / s) / cosh (2 * (arcsinh (s * x) * / s)) ^ 2).
    + unfold sinh_cdf. rewrite (proj2 (Rltb_false 0 s)), (proj2 (Rltb_iff s 0)) by lra.
      apply (K (fun y => arcsinh (s * y) * / s)).
      apply derivable_eq with (/ s * (/ sqrt ((s * x) ^ 2 + 1) * s)); [|ring].
      intros eps He.
      destruct (derivable_pt_lim_scal _ (/ s) x _ (derivable_pt_lim_comp (fun y => s * y) arcsinh x _ _ Lin (derivable_pt_lim_arcsinh _)) eps He) as [dlt Hd].
      exists dlt. intros h H1 H2. specialize (Hd h H1 H2). unfold mult_real_fct, comp in Hd. rewrite !(Rmult_comm _ (/ s)). exact Hd.
    + replace (2 / s * arcsinh (s * x)) with (2 * (arcsinh (s * x) * / s)) by (field; lra).
      assert (0 < sqrt ((s * x) ^ 2 + 1)) by (apply sqrt_lt_R0; nra).
      pose proof (cosh_pos (2 * (arcsinh (s * x) * / s))). field. repeat split; lra.
  - subst s. rewrite (proj2 (Rltb_false 0 0)) by lra. unfold sinh_cdf. rewrite (proj2 (Rltb_false 0 0)) by lra.
    apply (K (fun y => y)). apply derivable_pt_lim_id.
  - rewrite (proj2 (Rltb_iff 0 s)) by lra.
    apply derivable_eq with ((cosh (s * x) * s * / s) / cosh (2 * (sinh (s * x) * / s)) ^ 2).
    + unfold sinh_cdf. rewrite (proj2 (Rltb_iff 0 s)) by lra.
      apply (K (fun y => sinh (s * y) * / s)).
      apply derivable_eq with (/ s * (cosh (s * x) * s)); [|ring].
      intros eps He.
      destruct (derivable_pt_lim_scal _ (/ s) x _ (derivable_pt_lim_comp (fun y => s * y) sinh x _ _ Lin (derivable_pt_lim_sinh _)) eps He) as [dlt Hd].
      exists dlt. intros h H1 H2. specialize (Hd h H1 H2). unfold mult_real_fct, comp in Hd. rewrite !(Rmult_comm _ (/ s)). exact Hd.
    + replace (2 / s * sinh (s * x)) with (2 * (sinh (s * x) * / s)) by (field; lra).
      pose proof (cosh_pos (2 * (sinh (s * x) * / s))). field. repeat split; lra.
Qed.

(** Collecting the parts of [interpolates]. *)
Lemma make_interpolates : forall alpha t ppf cdf (support : R -> Prop) (f g : R -> R),
  0 < alpha < 1 / 2 ->
  (forall p, 0 < p < 1 -> ppf p = Some (f p)) -> (forall v, support v -> cdf v = Some (g v)) ->
  (forall p q, 0 < p -> p < q -> q < 1 -> f p < f q) ->
  (forall p, 0 < p < 1 -> support (f p) /\ g (f p) = p) ->
  (forall v, support v -> 0 < g v < 1 /\ f (g v) = v) ->
  f alpha = qv_low t -> f (1 / 2) = qv_median t -> f (1 - alpha) = qv_high t ->
  interpolates alpha t ppf cdf support.
Proof.
  intros a t ppf cdf sup f g Ha F G M FG GF E1 E2 E3. unfold interpolates.
  rewrite !F by lra. rewrite E1, E2, E3.
  split; [reflexivity|split; [reflexivity|split; [reflexivity|split; [|split]]]].
  - intros p q H1 H2 H3. exists (f p), (f q). rewrite !F by lra. split; [reflexivity|split; [reflexivity|now apply M]].
  - intros p Hp. destruct (FG p Hp) as [S E]. exists (f p). rewrite F, G, E by assumption. now split.
  - intros v Hv. destruct (GF v Hv) as [S E]. exists (g v). rewrite F, G, E by assumption. now split.
Qed.

(** Gaps of an ordered, skewed triplet. *)
Lemma gap_cases : forall L B H, L < B < H -> skewness L B H <> 0 ->
  0 < smaller_gap L B H /\ 1 < (H - L) / (2 * smaller_gap L B H) /\
  (skewness L B H > 0 /\ smaller_gap L B H = B - L \/ skewness L B H < 0 /\ smaller_gap L B H = H - B).
Proof.
  intros L B H Hlt Hs. unfold skewness, smaller_gap in *.
  assert (G : forall g, 0 < g -> 2 * g < H - L -> 1 < (H - L) / (2 * g)).
  { intros g G1 G2. apply Rmult_lt_reg_r with (2 * g); [lra|]. unfold Rdiv. rewrite Rmult_assoc, Rinv_l by lra. lra. }
  destruct (Rltb (B - L) (H - B)) eqn:E.
  - apply Rltb_iff in E. split; [lra|split; [apply G; lra|left; lra]].
  - apply Rltb_false in E. split; [lra|split; [apply G; lra|right; lra]].
Qed.
Lemma gap_other : forall L B H, (if Rltb (H - B) (B - L) then H - B else B - L) = smaller_gap L B H.
Proof.
  intros L B H. unfold smaller_gap. destruct (Rltb (H - B) (B - L)) eqn:E1, (Rltb (B - L) (H - B)) eqn:E2; try reflexivity.
  - apply Rltb_iff in E1, E2. lra.
  - apply Rltb_false in E1, E2. lra.
Qed.
Lemma sign_pos : forall L B H, skewness L B H > 0 -> sign_n L B H = 1 /\ forall a b c, by_sign L B H a b c = a.
Proof.
  intros L B H P. unfold sign_n, by_sign. rewrite (proj2 (Reqb_false_iff (skewness L B H) 0)) by lra.
  rewrite (proj2 (Rltb_iff 0 (skewness L B H))) by lra. now split.
Qed.
Lemma sign_neg : forall L B H, skewness L B H < 0 -> sign_n L B H = -1 /\ forall a b c, by_sign L B H a b c = b.
Proof.
  intros L B H P. unfold sign_n, by_sign. rewrite (proj2 (Reqb_false_iff (skewness L B H) 0)) by lra.
  rewrite (proj2 (Rltb_false 0 (skewness L B H))) by lra. now split.
Qed.

(** ** J_QPD_S *)
Section SemiBounded.
Variables (phi : dist) (alpha : R).
Hypothesis BD : base_distribution phi.
Hypothesis HA : 0 < alpha < 1 / 2.
Let c := d_ppf phi (1 - alpha).

Lemma ppf_s_increasing : forall q, 0 < s_theta q -> 0 < s_kappa q -> 0 < s_delta q ->
  forall x y, 0 < x -> x < y -> y < 1 -> ppf_s phi q x < ppf_s phi q y.
Proof.
  intros q Ht Hk Hd x y Hx Hxy Hy. unfold ppf_s. apply Rplus_lt_compat_l, Rmult_lt_compat_l; [assumption|].
  apply exp_increasing, Rmult_lt_compat_l; [assumption|]. apply sinh_lt, Rplus_lt_compat_r, arcsinh_lt, Rmult_lt_compat_r; [assumption|].
  now apply (ppf_increasing phi BD).
Qed.
Lemma cdf_ppf_s : forall q, 0 < s_theta q -> 0 < s_kappa q -> 0 < s_delta q ->
  forall x, 0 < x < 1 -> s_l q < ppf_s phi q x /\ cdf_s phi q (ppf_s phi q x) = Some x.
Proof.
  intros q Ht Hk Hd x Hx.
  assert (P : s_l q < ppf_s phi q x). { unfold ppf_s. pose proof (Rmult_lt_0_compat _ _ Ht (exp_pos (s_kappa q * sinh (arcsinh (d_ppf phi x * s_delta q) + arcsinh (s_n q * s_c q * s_delta q))))). lra. }
  split; [exact P|]. unfold cdf_s.
  rewrite (proj2 (Rltb_false (ppf_s phi q x) (s_l q))), (proj2 (Reqb_false_iff (ppf_s phi q x) (s_l q))) by lra.
  f_equal. transitivity (d_cdf phi (d_ppf phi x)); [|now apply (cdf_of_ppf phi BD)]. f_equal.
  unfold ppf_s. set (A := arcsinh (s_n q * s_c q * s_delta q)). set (P0 := arcsinh (d_ppf phi x * s_delta q)).
  replace ((s_l q + s_theta q * exp (s_kappa q * sinh (P0 + A)) - s_l q) / s_theta q) with (exp (s_kappa q * sinh (P0 + A))) by (field; lra).
  rewrite ln_exp. replace (1 / s_kappa q * (s_kappa q * sinh (P0 + A))) with (sinh (P0 + A)) by (field; lra).
  rewrite arcsinh_sinh. replace (P0 + A - A) with P0 by ring. unfold P0. rewrite sinh_arcsinh. field. lra.
Qed.
Lemma ppf_cdf_s : forall q, 0 < s_theta q -> 0 < s_kappa q -> 0 < s_delta q ->
  forall v, s_l q < v -> exists p, cdf_s phi q v = Some p /\ 0 < p < 1 /\ ppf_s phi q p = v.
Proof.
  intros q Ht Hk Hd v Hv. unfold cdf_s.
  rewrite (proj2 (Rltb_false v (s_l q))), (proj2 (Reqb_false_iff v (s_l q))) by lra.
  eexists. split; [reflexivity|split; [apply (cdf_range phi BD)|]].
  unfold ppf_s. rewrite (ppf_of_cdf phi BD). set (A := arcsinh (s_n q * s_c q * s_delta q)).
  set (Z := arcsinh (1 / s_kappa q * ln ((v - s_l q) / s_theta q))).
  replace (1 / s_delta q * sinh (Z - A) * s_delta q) with (sinh (Z - A)) by (field; lra).
  rewrite arcsinh_sinh. replace (Z - A + A) with Z by ring. unfold Z. rewrite sinh_arcsinh.
  replace (s_kappa q * (1 / s_kappa q * ln ((v - s_l q) / s_theta q))) with (ln ((v - s_l q) / s_theta q)) by (field; lra).
  rewrite exp_ln by (apply Rdiv_lt_0_compat; lra). field. lra.
Qed.

Lemma semibounded : forall t l, ordered t -> l < qv_low t ->
  (qv_low t - l) * (qv_high t - l) <> (qv_median t - l) ^ 2 ->
  interpolates alpha t (ppf_s_opt phi (fit_s phi alpha t l)) (cdf_s_opt phi (fit_s phi alpha t l)) (above l).
Proof.
  intros [lo me hi] l [O1 O2] Hl Hskew. cbn [qv_low qv_median qv_high] in *.
  assert (Hc : 0 < c) by now apply (width_pos phi BD).
  set (L := ln (lo - l)). set (H := ln (hi - l)). set (B := ln (me - l)).
  assert (LB : L < B < H) by (split; apply ln_increasing; lra).
  assert (SK : skewness L B H <> 0).
  { intro E. apply Hskew. unfold skewness, L, B, H in E.
    rewrite <- ln_mult in E by lra. replace (2 * ln (me - l)) with (ln (me - l) + ln (me - l)) in E by ring.
    rewrite <- ln_mult in E by lra. replace ((me - l) ^ 2) with ((me - l) * (me - l)) by ring.
    apply ln_inv; [apply Rmult_lt_0_compat; lra|apply Rmult_lt_0_compat; lra|lra]. }
  destruct (gap_cases L B H LB SK) as [G1 [G2 G3]]. set (g := smaller_gap L B H) in *.
  set (r := (H - L) / (2 * g)) in *. set (s := arccosh r).
  assert (S1 : 0 < s) by now apply arccosh_pos.
  assert (S2 : cosh s = r) by (apply cosh_arccosh; lra).
  assert (S3 : 0 < sinh s) by now apply sinh_pos.
  set (delta := 1 / c * sinh s).
  assert (D0 : 0 < delta). { unfold delta. apply Rmult_lt_0_compat; [|assumption]. apply Rdiv_lt_0_compat; lra. }
  assert (D1 : c * delta = sinh s) by (unfold delta; field; lra).
  set (q := {| s_l := l; s_c := c; s_n := sign_n L B H; s_theta := by_sign L B H (lo - l) (hi - l) (me - l);
               s_delta := delta; s_kappa := 1 / (delta * c) * g |}).
  assert (FIT : fit_s phi alpha {| qv_low := lo; qv_median := me; qv_high := hi |} l = Some q).
  { unfold fit_s, positive. cbn [qv_low qv_median qv_high]. fold c.
    rewrite !(proj2 (Rltb_iff 0 _)) by lra. cbn [andb]. fold L H B g r s. fold delta.
    rewrite !(proj2 (Reqb_false_iff _ 0)) by lra. cbn [orb]. rewrite gap_other. reflexivity. }
  assert (K0 : 0 < s_kappa q).
  { unfold q; cbn [s_kappa]. apply Rmult_lt_0_compat; [|assumption]. apply Rdiv_lt_0_compat; [lra|]. apply Rmult_lt_0_compat; lra. }
  assert (T0 : 0 < s_theta q).
  { unfold q; cbn [s_theta]. destruct G3 as [[P _]|[P _]]; [destruct (sign_pos L B H P) as [_ ->]|destruct (sign_neg L B H P) as [_ ->]]; lra. }
  assert (KS : forall z, s_kappa q * sinh z = g * sinh z / sinh s).
  { intro z. unfold q; cbn [s_kappa]. rewrite (Rmult_comm delta c), D1. field. lra. }
  assert (E1 : d_ppf phi alpha * delta = - sinh s) by (rewrite (ppf_alpha phi BD alpha HA); fold c; rewrite <- D1; ring).
  assert (E3 : d_ppf phi (1 - alpha) * delta = sinh s) by (fold c; exact D1).
  assert (V : ppf_s phi q alpha = lo /\ ppf_s phi q (1 / 2) = me /\ ppf_s phi q (1 - alpha) = hi).
  { unfold ppf_s. rewrite !KS. change (s_delta q) with delta. change (s_l q) with l. change (s_c q) with c.
    rewrite E1, E3, (ppf_half phi BD), Rmult_0_l, arcsinh_0, arcsinh_opp, arcsinh_sinh. unfold q; cbn [s_n s_theta].
    assert (X2 : g * sinh (2 * s) / sinh s = H - L).
    { rewrite sinh_double, S2. unfold r. field. lra. }
    assert (XL : exp L = lo - l) by (apply exp_ln; lra).
    assert (XB : exp B = me - l) by (apply exp_ln; lra).
    assert (XH : exp H = hi - l) by (apply exp_ln; lra).
    destruct G3 as [[P Eg]|[P Eg]].
    - destruct (sign_pos L B H P) as [-> ->]. rewrite Rmult_1_l, D1, arcsinh_sinh.
      replace (- s + s) with 0 by ring. replace (0 + s) with s by ring. replace (s + s) with (2 * s) by ring. rewrite X2, sinh_0.
      replace (g * 0 / sinh s) with 0 by (field; lra). replace (g * sinh s / sinh s) with g by (field; lra). rewrite Eg, exp_0.
      assert (XX : forall z, (lo - l) * exp (z - L) = exp z) by (intro z; rewrite <- XL, <- exp_plus; f_equal; ring).
      rewrite !XX, XB, XH. repeat split; lra.
    - destruct (sign_neg L B H P) as [-> ->]. replace (-1 * c * delta) with (- (c * delta)) by ring. rewrite D1, arcsinh_opp, arcsinh_sinh.
      replace (- s + - s) with (- (2 * s)) by ring. replace (0 + - s) with (- s) by ring. replace (s + - s) with 0 by ring.
      rewrite !sinh_opp, sinh_0. replace (g * - sinh (2 * s) / sinh s) with (- (g * sinh (2 * s) / sinh s)) by (field; lra). rewrite X2.
      replace (g * - sinh s / sinh s) with (- g) by (field; lra). replace (g * 0 / sinh s) with 0 by (field; lra). rewrite Eg, exp_0.
      assert (XX : forall z, (hi - l) * exp (- (H - z)) = exp z) by (intro z; rewrite <- XH, <- exp_plus; f_equal; ring).
      rewrite !XX, XB, XL. repeat split; lra. }
  rewrite FIT. unfold interpolates; cbn [ppf_s_opt cdf_s_opt qv_low qv_median qv_high].
  destruct V as [-> [-> ->]].
  split; [reflexivity|split; [reflexivity|split; [reflexivity|split; [|split]]]].
  - intros x y H1 H2 H3. exists (ppf_s phi q x), (ppf_s phi q y). split; [reflexivity|split; [reflexivity|]].
    now apply ppf_s_increasing.
  - intros x Hx. exists (ppf_s phi q x). split; [reflexivity|]. exact (cdf_ppf_s q T0 K0 D0 x Hx).
  - intros v Hv. destruct (ppf_cdf_s q T0 K0 D0 v Hv) as [p [P1 [P2 P3]]]. exists p. rewrite P3. split; [exact P2|split; [exact P1|reflexivity]].
Qed.

(** Without skewness there are no numbers. *)
Lemma semibounded_symmetric : forall t l, l < qv_low t -> ordered t ->
  (qv_low t - l) * (qv_high t - l) = (qv_median t - l) ^ 2 -> fit_s phi alpha t l = None.
Proof.
  intros [lo me hi] l Hl [O1 O2] Hskew. cbn [qv_low qv_median qv_high] in *.
  unfold fit_s, positive. cbn [qv_low qv_median qv_high]. rewrite !(proj2 (Rltb_iff 0 _)) by lra. cbn [andb].
  set (L := ln (lo - l)). set (H := ln (hi - l)). set (B := ln (me - l)).
  assert (LB : L < B < H) by (split; apply ln_increasing; lra).
  assert (E : L + H = 2 * B).
  { unfold L, H, B. rewrite <- ln_mult, Hskew by lra. replace ((me - l) ^ 2) with ((me - l) * (me - l)) by ring. rewrite ln_mult by lra. ring. }
  assert (G : smaller_gap L B H = H - B). { unfold smaller_gap. rewrite (proj2 (Rltb_false _ _)) by lra. reflexivity. }
  rewrite G. destruct (_ || _); [reflexivity|]. replace ((H - L) / (2 * (H - B))) with 1; [|field_simplify_eq; lra].
  rewrite arccosh_1, sinh_0, Rmult_0_r. now rewrite (proj2 (Reqb_iff 0 0) eq_refl).
Qed.
End SemiBounded.

(** ** J_QPD_B *)
Section Bounded.
Variables (phi : dist) (alpha : R).
Hypothesis BD : base_distribution phi.
Hypothesis HA : 0 < alpha < 1 / 2.
Let c := d_ppf phi (1 - alpha).

Lemma share : forall l u v, l < v < u -> 0 < (v - l) / (u - l) < 1.
Proof.
  intros l u v Hv. split; [apply Rdiv_lt_0_compat; lra|].
  apply Rmult_lt_reg_r with (u - l); [lra|]. unfold Rdiv. rewrite Rmult_assoc, Rinv_l by lra. lra.
Qed.
Lemma share_lt : forall l u v w, l < u -> v < w -> (v - l) / (u - l) < (w - l) / (u - l).
Proof. intros. apply Rmult_lt_compat_r; [apply Rinv_0_lt_compat; lra|lra]. Qed.
Lemma ppf_b_increasing : forall q, b_l q < b_u q -> 0 < b_kappa q -> 0 < b_delta q ->
  forall x y, 0 < x -> x < y -> y < 1 -> ppf_b phi q x < ppf_b phi q y.
Proof.
  intros q Hb Hk Hd x y Hx Hxy Hy. unfold ppf_b. apply Rplus_lt_compat_l, Rmult_lt_compat_l; [lra|].
  apply (cdf_increasing phi BD), Rplus_lt_compat_l, Rmult_lt_compat_l; [assumption|].
  apply sinh_lt, Rmult_lt_compat_l; [assumption|]. apply Rplus_lt_compat_r. now apply (ppf_increasing phi BD).
Qed.
Lemma cdf_ppf_b : forall q, b_l q < b_u q -> 0 < b_kappa q -> 0 < b_delta q ->
  forall x, 0 < x < 1 -> b_l q < ppf_b phi q x < b_u q /\ cdf_b phi q (ppf_b phi q x) = Some x.
Proof.
  intros q Hb Hk Hd x Hx.
  set (z := b_xi q + b_kappa q * sinh (b_delta q * (d_ppf phi x + b_n q * b_c q))).
  assert (E : ppf_b phi q x = b_l q + (b_u q - b_l q) * d_cdf phi z) by reflexivity.
  pose proof (cdf_range phi BD z) as CR.
  assert (P : b_l q < ppf_b phi q x < b_u q). { rewrite E. split; nra. }
  split; [exact P|]. unfold cdf_b.
  rewrite (proj2 (Rltb_false (ppf_b phi q x) (b_l q))), (proj2 (Rltb_false (b_u q) (ppf_b phi q x))) by lra.
  rewrite (proj2 (Reqb_false_iff (ppf_b phi q x) (b_l q))), (proj2 (Reqb_false_iff (ppf_b phi q x) (b_u q))) by lra.
  cbn [orb]. f_equal. transitivity (d_cdf phi (d_ppf phi x)); [|now apply (cdf_of_ppf phi BD)]. f_equal.
  rewrite E. replace ((b_l q + (b_u q - b_l q) * d_cdf phi z - b_l q) / (b_u q - b_l q)) with (d_cdf phi z) by (field; lra).
  rewrite (ppf_of_cdf phi BD). unfold z. set (w := b_delta q * (d_ppf phi x + b_n q * b_c q)).
  replace (1 / b_kappa q * (b_xi q + b_kappa q * sinh w - b_xi q)) with (sinh w) by (field; lra).
  rewrite arcsinh_sinh. unfold w. field. lra.
Qed.
Lemma ppf_cdf_b : forall q, b_l q < b_u q -> 0 < b_kappa q -> 0 < b_delta q ->
  forall v, b_l q < v < b_u q -> exists p, cdf_b phi q v = Some p /\ 0 < p < 1 /\ ppf_b phi q p = v.
Proof.
  intros q Hb Hk Hd v Hv. unfold cdf_b.
  rewrite (proj2 (Rltb_false v (b_l q))), (proj2 (Rltb_false (b_u q) v)) by lra.
  rewrite (proj2 (Reqb_false_iff v (b_l q))), (proj2 (Reqb_false_iff v (b_u q))) by lra.
  cbn [orb]. eexists. split; [reflexivity|split; [apply (cdf_range phi BD)|]].
  unfold ppf_b. rewrite (ppf_of_cdf phi BD). set (w := arcsinh (1 / b_kappa q * (d_ppf phi ((v - b_l q) / (b_u q - b_l q)) - b_xi q))).
  replace (b_delta q * (1 / b_delta q * w - b_n q * b_c q + b_n q * b_c q)) with w by (field; lra).
  unfold w. rewrite sinh_arcsinh.
  replace (b_xi q + b_kappa q * (1 / b_kappa q * (d_ppf phi ((v - b_l q) / (b_u q - b_l q)) - b_xi q)))
    with (d_ppf phi ((v - b_l q) / (b_u q - b_l q))) by (field; lra).
  rewrite (cdf_of_ppf phi BD) by now apply share. field. lra.
Qed.

Definition internal (l u v : R) : R := d_ppf phi ((v - l) / (u - l)).
Lemma internal_lt : forall l u v w, l < v -> v < w -> w < u -> internal l u v < internal l u w.
Proof.
  intros l u v w H1 H2 H3. apply (ppf_increasing phi BD).
  - apply share; lra.
  - apply share_lt; lra.
  - apply share; lra.
Qed.
Lemma internal_back : forall l u v, l < v < u -> l + (u - l) * d_cdf phi (internal l u v) = v.
Proof. intros l u v Hv. unfold internal. rewrite (cdf_of_ppf phi BD) by now apply share. field. lra. Qed.

Lemma bounded : forall t l u, ordered t -> l < qv_low t -> qv_high t < u ->
  internal l u (qv_low t) + internal l u (qv_high t) <> 2 * internal l u (qv_median t) ->
  interpolates alpha t (ppf_b_opt phi (fit_b phi alpha t l u)) (cdf_b_opt phi (fit_b phi alpha t l u)) (between l u).
Proof.
  intros [lo me hi] l u [O1 O2] Hl Hu Hskew. cbn [qv_low qv_median qv_high] in *.
  assert (Hc : 0 < c) by now apply (width_pos phi BD).
  pose proof (internal_back l u lo ltac:(lra)) as XL.
  pose proof (internal_back l u me ltac:(lra)) as XB.
  pose proof (internal_back l u hi ltac:(lra)) as XH.
  assert (LB : internal l u lo < internal l u me < internal l u hi) by (split; apply internal_lt; lra).
  set (L := internal l u lo) in *. set (H := internal l u hi) in *. set (B := internal l u me) in *.
  assert (SK : skewness L B H <> 0) by (unfold skewness; lra).
  destruct (gap_cases L B H LB SK) as [G1 [G2 G3]]. set (g := smaller_gap L B H) in *.
  set (r := (H - L) / (2 * g)) in *. set (s := arccosh r).
  assert (S1 : 0 < s) by now apply arccosh_pos.
  assert (S2 : cosh s = r) by (apply cosh_arccosh; lra).
  assert (S3 : 0 < sinh s) by now apply sinh_pos.
  set (delta := 1 / c * s).
  assert (D0 : 0 < delta). { unfold delta. apply Rmult_lt_0_compat; [|assumption]. apply Rdiv_lt_0_compat; lra. }
  assert (D1 : delta * c = s) by (unfold delta; field; lra).
  set (q := {| b_l := l; b_u := u; b_c := c; b_n := sign_n L B H; b_xi := by_sign L B H L H B;
               b_delta := delta; b_kappa := (H - L) / sinh (2 * delta * c) |}).
  assert (FIT : fit_b phi alpha {| qv_low := lo; qv_median := me; qv_high := hi |} l u = Some q).
  { unfold fit_b, inside. cbn [qv_low qv_median qv_high]. fold c.
    rewrite !(proj2 (Rltb_iff _ _)) by lra. cbn [andb]. fold (internal l u lo) (internal l u me) (internal l u hi).
    fold L H B g r s. fold delta.
    rewrite !(proj2 (Reqb_false_iff _ 0)) by lra. cbn [orb]. reflexivity. }
  assert (K1 : b_kappa q = (H - L) / sinh (2 * s)).
  { unfold q; cbn [b_kappa]. do 2 f_equal. rewrite Rmult_assoc, D1. reflexivity. }
  assert (S4 : 0 < sinh (2 * s)) by (apply sinh_pos; lra).
  assert (K0 : 0 < b_kappa q) by (rewrite K1; apply Rdiv_lt_0_compat; lra).
  assert (V2 : b_kappa q * sinh (2 * s) = H - L) by (rewrite K1; field; lra).
  assert (V1 : b_kappa q * sinh s = g).
  { rewrite K1, sinh_double, S2. unfold r. field. repeat split; lra. }
  assert (Q1 : b_l q < b_u q) by (cbn; lra).
  assert (V : ppf_b phi q alpha = lo /\ ppf_b phi q (1 / 2) = me /\ ppf_b phi q (1 - alpha) = hi).
  { unfold ppf_b. rewrite (ppf_alpha phi BD alpha HA), (ppf_half phi BD). fold c.
    change (b_delta q) with delta. change (b_l q) with l. change (b_u q) with u. change (b_c q) with c.
    change (b_n q) with (sign_n L B H). change (b_xi q) with (by_sign L B H L H B).
    destruct G3 as [[P Eg]|[P Eg]].
    - destruct (sign_pos L B H P) as [-> ->].
      replace (delta * (- c + 1 * c)) with 0 by ring. replace (delta * (0 + 1 * c)) with s by (rewrite <- D1; ring).
      replace (delta * (c + 1 * c)) with (2 * s) by (rewrite <- D1; ring). rewrite V1, V2, sinh_0, Eg.
      replace (L + b_kappa q * 0) with L by ring. replace (L + (B - L)) with B by ring. replace (L + (H - L)) with H by ring. now repeat split.
    - destruct (sign_neg L B H P) as [-> ->].
      replace (delta * (- c + -1 * c)) with (- (2 * s)) by (rewrite <- D1; ring).
      replace (delta * (0 + -1 * c)) with (- s) by (rewrite <- D1; ring).
      replace (delta * (c + -1 * c)) with 0 by ring. rewrite !sinh_opp, sinh_0.
      replace (b_kappa q * - sinh (2 * s)) with (- (H - L)) by (rewrite <- V2; ring).
      replace (b_kappa q * - sinh s) with (- (H - B)) by (rewrite <- Eg, <- V1; ring).
      replace (H + - (H - L)) with L by ring. replace (H + - (H - B)) with B by ring. replace (H + b_kappa q * 0) with H by ring. now repeat split. }
  rewrite FIT. unfold interpolates; cbn [ppf_b_opt cdf_b_opt qv_low qv_median qv_high].
  destruct V as [-> [-> ->]].
  split; [reflexivity|split; [reflexivity|split; [reflexivity|split; [|split]]]].
  - intros x y H1 H2 H3. exists (ppf_b phi q x), (ppf_b phi q y). split; [reflexivity|split; [reflexivity|]].
    now apply ppf_b_increasing.
  - intros x Hx. exists (ppf_b phi q x). split; [reflexivity|]. exact (cdf_ppf_b q Q1 K0 D0 x Hx).
  - intros v Hv. destruct (ppf_cdf_b q Q1 K0 D0 v Hv) as [p [P1 [P2 P3]]]. exists p. rewrite P3.
    split; [exact P2|split; [exact P1|reflexivity]].
Qed.

Lemma bounded_symmetric : forall t l u, ordered t -> l < qv_low t -> qv_high t < u ->
  internal l u (qv_low t) + internal l u (qv_high t) = 2 * internal l u (qv_median t) -> fit_b phi alpha t l u = None.
Proof.
  intros [lo me hi] l u [O1 O2] Hl Hu Hskew. cbn [qv_low qv_median qv_high] in *.
  unfold fit_b, inside. cbn [qv_low qv_median qv_high]. rewrite !(proj2 (Rltb_iff _ _)) by lra. cbn [andb].
  fold (internal l u lo) (internal l u me) (internal l u hi).
  assert (LB : internal l u lo < internal l u me < internal l u hi) by (split; apply internal_lt; lra).
  set (L := internal l u lo) in *. set (H := internal l u hi) in *. set (B := internal l u me) in *.
  assert (G : smaller_gap L B H = H - B). { unfold smaller_gap. rewrite (proj2 (Rltb_false _ _)) by lra. reflexivity. }
  rewrite G. destruct (_ || _); [reflexivity|]. replace ((H - L) / (2 * (H - B))) with 1; [|field_simplify_eq; lra].
  rewrite arccosh_1, Rmult_0_r. now rewrite (proj2 (Reqb_iff 0 0) eq_refl).
Qed.
End Bounded.

(** ** The extended versions *)
Section Extended.
Variables (d : dist) (alpha : R).
Hypothesis BD : base_distribution d.
Hypothesis HA : 0 < alpha < 1 / 2.
Let c := d_ppf d (1 - alpha).

Lemma johnson_increasing : forall j, 0 < j_kappa j -> 0 < j_delta j ->
  forall x y, 0 < x -> x < y -> y < 1 -> johnson_ppf d alpha j x < johnson_ppf d alpha j y.
Proof.
  intros j Hk Hd x y Hx Hxy Hy. assert (Hc : 0 < c) by now apply (width_pos d BD).
  unfold johnson_ppf, base_dist; cbn [d_ppf]. fold c. apply Rplus_lt_compat_l, Rmult_lt_compat_l; [assumption|].
  apply sinh_lt, Rmult_lt_compat_r; [now apply Rinv_0_lt_compat|]. apply Rplus_lt_compat_r.
  apply Rmult_lt_compat_r; [now apply Rinv_0_lt_compat|]. now apply (ppf_increasing d BD).
Qed.
Lemma johnson_cdf_ppf : forall j, 0 < j_kappa j -> 0 < j_delta j ->
  forall x, 0 < x < 1 -> johnson_cdf d alpha j (johnson_ppf d alpha j x) = Some x.
Proof.
  intros j Hk Hd x Hx. assert (Hc : 0 < c) by now apply (width_pos d BD).
  unfold johnson_cdf. rewrite (proj2 (Reqb_false_iff (j_kappa j) 0)) by lra. f_equal.
  unfold johnson_ppf, base_dist; cbn [d_ppf d_cdf]. fold c.
  set (w := (d_ppf d x / c - j_gamma j) / j_delta j).
  replace ((j_xi j + j_kappa j * sinh w - j_xi j) / j_kappa j) with (sinh w) by (field; lra).
  rewrite arcsinh_sinh. unfold w.
  replace ((j_gamma j + j_delta j * ((d_ppf d x / c - j_gamma j) / j_delta j)) * c) with (d_ppf d x) by (field; lra).
  now apply (cdf_of_ppf d BD).
Qed.
Lemma johnson_ppf_cdf : forall j, 0 < j_kappa j -> 0 < j_delta j ->
  forall z, exists p, johnson_cdf d alpha j z = Some p /\ 0 < p < 1 /\ johnson_ppf d alpha j p = z.
Proof.
  intros j Hk Hd z. assert (Hc : 0 < c) by now apply (width_pos d BD).
  unfold johnson_cdf. rewrite (proj2 (Reqb_false_iff (j_kappa j) 0)) by lra.
  eexists. split; [reflexivity|]. unfold johnson_ppf, base_dist; cbn [d_ppf d_cdf]. fold c. split; [apply (cdf_range d BD)|].
  rewrite (ppf_of_cdf d BD). set (w := arcsinh ((z - j_xi j) / j_kappa j)).
  replace (((j_gamma j + j_delta j * w) * c / c - j_gamma j) / j_delta j) with w by (field; lra).
  unfold w. rewrite sinh_arcsinh. field. lra.
Qed.

Lemma johnson_fit : forall L B H, L < B < H -> L + H <> 2 * B ->
  exists j, unconstrained_calc L B H = Some j /\ 0 < j_kappa j /\ 0 < j_delta j /\
    johnson_ppf d alpha j alpha = L /\ johnson_ppf d alpha j (1 / 2) = B /\ johnson_ppf d alpha j (1 - alpha) = H.
Proof.
  intros L B H LB Hs. assert (Hc : 0 < c) by now apply (width_pos d BD).
  assert (SK : skewness L B H <> 0) by (unfold skewness; lra).
  destruct (gap_cases L B H LB SK) as [G1 [G2 G3]]. set (g := smaller_gap L B H) in *.
  set (r := (H - L) / (2 * g)) in *. set (s := arccosh r).
  assert (S1 : 0 < s) by now apply arccosh_pos.
  assert (S2 : cosh s = r) by (apply cosh_arccosh; lra).
  assert (S3 : 0 < sinh s) by now apply sinh_pos.
  assert (S4 : 0 < sinh (2 * s)) by (apply sinh_pos; lra).
  set (kappa := (H - L) / sinh (2 * s)).
  assert (K0 : 0 < kappa) by (apply Rdiv_lt_0_compat; lra).
  assert (V2 : kappa * sinh (2 * s) = H - L) by (unfold kappa; field; lra).
  assert (V1 : kappa * sinh s = g) by (unfold kappa; rewrite sinh_double, S2; unfold r; field; repeat split; lra).
  assert (TH : forall theta, theta = g / (H - L) -> theta <> 0 /\ arccosh (1 / (2 * theta)) = s).
  { intros th ->. split.
    - apply Rgt_not_eq, Rdiv_lt_0_compat; lra.
    - unfold s, r. f_equal. field. repeat split; lra. }
  assert (DE : 2 / (1 / s) = 2 * s) by (field; lra).
  exists {| j_gamma := if Rltb 0 (skewness L B H) then -1 else 1; j_xi := if Rltb 0 (skewness L B H) then L else H; j_kappa := kappa; j_delta := 1 / s |}.
  split.
  { unfold unconstrained_calc. rewrite (proj2 (Reqb_false_iff (skewness L B H) 0)) by assumption.
    destruct G3 as [[P Eg]|[P Eg]].
    - rewrite (proj2 (Rltb_iff 0 (skewness L B H))) by lra. rewrite (proj2 (Rltb_iff (-1) 0)) by lra.
      destruct (TH ((B - L) / (H - L)) ltac:(now rewrite Eg)) as [T1 T2].
      rewrite (proj2 (Reqb_false_iff _ 0) T1), T2, DE. reflexivity.
    - rewrite (proj2 (Rltb_false 0 (skewness L B H))) by lra. rewrite (proj2 (Rltb_false 1 0)) by lra.
      destruct (TH ((H - B) / (H - L)) ltac:(now rewrite Eg)) as [T1 T2].
      rewrite (proj2 (Reqb_false_iff _ 0) T1), T2, DE. reflexivity. }
  cbn [j_kappa j_delta]. split; [assumption|split; [apply Rdiv_lt_0_compat; lra|]].
  unfold johnson_ppf, base_dist; cbn [d_ppf j_xi j_kappa j_gamma j_delta]. rewrite (ppf_alpha d BD alpha HA), (ppf_half d BD). fold c.
  destruct G3 as [[P Eg]|[P Eg]].
  - rewrite (proj2 (Rltb_iff 0 (skewness L B H))) by lra.
    replace ((- c / c - -1) / (1 / s)) with 0 by (field; lra). replace ((0 / c - -1) / (1 / s)) with s by (field; lra).
    replace ((c / c - -1) / (1 / s)) with (2 * s) by (field; lra). rewrite V1, V2, sinh_0, Eg. repeat split; ring.
  - rewrite (proj2 (Rltb_false 0 (skewness L B H))) by lra.
    replace ((- c / c - 1) / (1 / s)) with (- (2 * s)) by (field; lra). replace ((0 / c - 1) / (1 / s)) with (- s) by (field; lra).
    replace ((c / c - 1) / (1 / s)) with 0 by (field; lra). rewrite !sinh_opp, sinh_0.
    replace (kappa * - sinh (2 * s)) with (- (H - L)) by (rewrite <- V2; ring).
    replace (kappa * - sinh s) with (- (H - B)) by (rewrite <- Eg, <- V1; ring). repeat split; ring.
Qed.

Lemma extended_interpolates : forall (into : R -> option R) (back : R -> R) (support : R -> Prop) t L B H,
  (forall z w, z < w -> back z < back w) -> (forall z, support (back z) /\ into (back z) = Some z) ->
  (forall v, support v -> exists z, into v = Some z /\ back z = v) ->
  ordered t -> into (qv_low t) = Some L -> into (qv_median t) = Some B -> into (qv_high t) = Some H ->
  support (qv_low t) -> support (qv_median t) -> support (qv_high t) -> L + H <> 2 * B ->
  interpolates alpha t (ppf_extended d alpha back (fit_extended into t)) (cdf_extended d alpha into (fit_extended into t)) support.
Proof.
  intros into back sup [lo me hi] L B H Bm Bi Ib [O1 O2] EL EB EH SL SB SH Hs. cbn [qv_low qv_median qv_high] in *.
  assert (Un : forall v z, sup v -> into v = Some z -> back z = v).
  { intros v z Sv Ev. destruct (Ib v Sv) as [z' [E1 E2]]. congruence. }
  assert (LB : L < B < H).
  { assert (M : forall z w, back z < back w -> z < w).
    { intros z w Hzw. destruct (Rtotal_order z w) as [|[E|E]]; [assumption|subst; lra|]. apply Bm in E. lra. }
    split; apply M; [rewrite (Un _ _ SL EL), (Un _ _ SB EB)|rewrite (Un _ _ SB EB), (Un _ _ SH EH)]; assumption. }
  destruct (johnson_fit L B H LB Hs) as [j [F [Hk [Hd [V1 [V2 V3]]]]]].
  unfold fit_extended, monotonic; cbn [qv_low qv_median qv_high].
  rewrite !(proj2 (Rltb_false _ _)) by lra. cbn [negb andb]. rewrite EL, EB, EH, F.
  unfold interpolates; cbn [ppf_extended cdf_extended qv_low qv_median qv_high]. rewrite V1, V2, V3.
  rewrite (Un lo L SL EL), (Un me B SB EB), (Un hi H SH EH).
  split; [reflexivity|split; [reflexivity|split; [reflexivity|split; [|split]]]].
  - intros p q H1 H2 H3. eexists. eexists. split; [reflexivity|split; [reflexivity|]]. apply Bm. now apply johnson_increasing.
  - intros p Hp. eexists. split; [reflexivity|]. destruct (Bi (johnson_ppf d alpha j p)) as [B1 B2].
    split; [exact B1|]. rewrite B2. now apply johnson_cdf_ppf.
  - intros v Sv. destruct (Ib v Sv) as [z [E1 E2]]. rewrite E1.
    destruct (johnson_ppf_cdf j Hk Hd z) as [p [P1 [P2 P3]]]. exists p. rewrite P3, E2. split; [exact P2|split; [exact P1|reflexivity]].
Qed.

(** Without skewness the outer values are missed. *)
Lemma extended_symmetric : forall t, ordered t -> qv_low t + qv_high t = 2 * qv_median t ->
  exists v w, ppf_extended d alpha back_u (fit_extended into_u t) alpha = Some v /\ v < qv_low t /\
    ppf_extended d alpha back_u (fit_extended into_u t) (1 - alpha) = Some w /\ qv_high t < w.
Proof.
  intros [lo me hi] [O1 O2] Hs. cbn [qv_low qv_median qv_high] in *. assert (Hc : 0 < c) by now apply (width_pos d BD).
  unfold fit_extended, monotonic, into_u; cbn [qv_low qv_median qv_high].
  rewrite !(proj2 (Rltb_false _ _)) by lra. cbn [negb andb].
  unfold unconstrained_calc. rewrite (proj2 (Reqb_iff (skewness lo me hi) 0)) by (unfold skewness; lra).
  cbn [ppf_extended]. unfold back_u, johnson_ppf, base_dist; cbn [d_ppf j_xi j_kappa j_gamma j_delta].
  rewrite (ppf_alpha d BD alpha HA). fold c.
  replace ((- c / c - 0) / 1) with (- (1)) by (field; lra). replace ((c / c - 0) / 1) with 1 by (field; lra). rewrite sinh_opp.
  assert (S1 : 1 < sinh 1).
  { unfold sinh. pose proof (exp_ineq1 1 ltac:(lra)).
    assert (E : exp (- (1)) * exp 1 = 1) by (rewrite <- exp_plus; replace (- (1) + 1) with 0 by ring; apply exp_0).
    pose proof (exp_pos (- (1))). pose proof (exp_pos 1).
    assert (243 / 100 < exp 1).
    { assert (E2 : exp 1 = exp (1/4) * exp (1/4) * exp (1/4) * exp (1/4)) by (rewrite <- !exp_plus; f_equal; lra).
      pose proof (exp_ineq1 (1/4) ltac:(lra)). rewrite E2.
      apply Rlt_le_trans with ((1 + 1/4) * (1 + 1/4) * (1 + 1/4) * (1 + 1/4)); [lra|].
      set (e := exp (1 / 4)) in *. assert ((1 + 1/4) * (1 + 1/4) <= e * e) by nra. nra. }
    nra. }
  eexists. eexists. split; [reflexivity|split; [|split; [reflexivity|]]]; nra.
Qed.
End Extended.
