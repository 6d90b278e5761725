(** Bin estimates of the classifier and of the location models. *)
From Coq Require Import List Bool Reals Lia Lra.
From Verif.Model Require Import Num LexBins Train Predict Link Estimators.
From Verif.Spec Require Import TrainSpec PredictSpec LinkSpec EstimatorSpec.
From Verif.Proofs Require Import TrainFacts TrainExamples PredictFacts ImportanceFacts LinkFacts EstimatorFacts.
Import ListNotations.
Local Open Scope R_scope.

(** ** C53 *)
Lemma expit_range s : 0 < unlink_func Logit s < 1.
Proof.
  cbn [unlink_func]. pose proof (exp_pos (- s)). split; [apply Rdiv_lt_0_compat; lra|].
  apply (Rmult_lt_reg_r (1 + exp (- s))); [lra|]. replace (1 / (1 + exp (- s)) * (1 + exp (- s))) with 1 by (field; lra). lra.
Qed.
Lemma boost_weight_value y s : (y = 0 \/ y = 1) ->
  boost_weight y (unlink_func Logit s) = Rabs (y - unlink_func Logit s).
Proof.
  intro Hy. pose proof (expit_range s) as [P1 P2]. unfold boost_weight.
  replace (Reqb (unlink_func Logit s) 0) with false by (symmetry; apply Reqb_false_iff; lra).
  replace (Reqb (unlink_func Logit s) 1) with false by (symmetry; apply Reqb_false_iff; lra).
  destruct Hy as [->| ->].
  - replace (Reqb 0 0) with true by (symmetry; apply Reqb_iff; auto). rewrite Rabs_left; lra.
  - replace (Reqb 1 0) with false by (symmetry; apply Reqb_false_iff; lra). rewrite Rabs_right; lra.
Qed.

Section Matching.
Variable ppf : R -> R -> R -> R.
Variable erfinv : R -> R.
Hypothesis ppf_range : forall a b q, 0 < a -> 0 < b -> 0 < q < 1 -> 0 < ppf a b q < 1.
Hypothesis ppf_mono : forall a b q q', 0 < a -> 0 < b -> 0 < q -> q < q' -> q' < 1 -> ppf a b q < ppf a b q'.
Hypothesis erfinv_mono : forall t t', -1 < t -> t < t' -> t' < 1 -> erfinv t < erfinv t'.

Definition z (perc : R) : R := sqrt 2 * erfinv (2 * perc - 1).

Lemma logit_mono p q : 0 < p -> p < q -> q < 1 -> ln (p / (1 - p)) < ln (q / (1 - q)).
Proof.
  intros H1 H2 H3. apply ln_increasing; [apply Rdiv_lt_0_compat; lra|].
  assert (E : q / (1 - q) - p / (1 - p) = (q - p) / ((1 - q) * (1 - p))) by (field; lra).
  assert (0 < (q - p) / ((1 - q) * (1 - p))) by (apply Rdiv_lt_0_compat; [lra|apply Rmult_lt_0_compat; lra]). lra.
Qed.
Lemma logit_some p : 0 < p < 1 -> link_func Logit p = Some (ln (p / (1 - p))).
Proof.
  intros [H1 H2]. cbn [link_func].
  replace (Rltb 0 p) with true by (symmetry; apply Rltb_iff; auto).
  replace (Rltb p 1) with true by (symmetry; apply Rltb_iff; auto). reflexivity.
Qed.

Lemma matching a b p1 p2 : 0 < a -> 0 < b -> 0 < p2 -> p2 < p1 -> p1 < 1 ->
  exists mu sigma, gaussian_matching erfinv (ppf a b) p1 p2 = Some (mu, sigma) /\ 0 < sigma /\
    unlink_func Logit (mu + sigma * z p1) = ppf a b p1 /\ unlink_func Logit (mu + sigma * z p2) = ppf a b p2.
Proof.
  intros Ha Hb H2 H12 H1.
  pose proof (ppf_range a b p1 Ha Hb ltac:(lra)) as R1. pose proof (ppf_range a b p2 Ha Hb ltac:(lra)) as R2.
  pose proof (ppf_mono a b p2 p1 Ha Hb H2 H12 H1) as M.
  unfold gaussian_matching. rewrite !logit_some by auto.
  set (q1 := ln (ppf a b p1 / (1 - ppf a b p1))). set (q2 := ln (ppf a b p2 / (1 - ppf a b p2))).
  change (matching_coefficient erfinv) with z.
  assert (Hq : q2 < q1) by (apply logit_mono; lra).
  assert (Hz : z p2 < z p1).
  { unfold z. apply Rmult_lt_compat_l; [apply sqrt_lt_R0; lra|]. apply erfinv_mono; lra. }
  cbv zeta. exists (q1 - (q1 - q2) / (z p1 - z p2) * z p1), ((q1 - q2) / (z p1 - z p2)).
  split; [reflexivity|]. split; [apply Rdiv_lt_0_compat; lra|].
  assert (U : forall p, 0 < p < 1 -> unlink_func Logit (ln (p / (1 - p))) = p).
  { intros p [U1 U2]. cbn [unlink_func]. rewrite exp_Ropp, exp_ln by (apply Rdiv_lt_0_compat; lra). field. lra. }
  split.
  - replace (q1 - (q1 - q2) / (z p1 - z p2) * z p1 + (q1 - q2) / (z p1 - z p2) * z p1) with q1 by ring. apply U; auto.
  - replace (q1 - (q1 - q2) / (z p1 - z p2) * z p1 + (q1 - q2) / (z p1 - z p2) * z p2) with q2 by (field; lra). apply U; auto.
Qed.

Definition cl_alpha (lex : list nat) (y w s : list R) (k : nat) : R :=
  1001 / 1000 + bin_sum lex (fun j => at_row w j * Rabs (at_row y j - unlink_func Logit (at_row s j)) * at_row y j) k.
Definition cl_beta (lex : list nat) (y w s : list R) (k : nat) : R :=
  1001 / 1000 + bin_sum lex (fun j => at_row w j * Rabs (at_row y j - unlink_func Logit (at_row s j)) * (1 - at_row y j)) k.

Lemma cl_bin lex n y w s k : per_row lex y -> per_row lex w -> per_row lex s -> nonneg w ->
  (forall x, In x y -> x = 0 \/ x = 1) -> (k < n)%nat ->
  1001 / 1000 <= cl_alpha lex y w s k /\ 1001 / 1000 <= cl_beta lex y w s k /\
  nth_error (classifier_parameters ppf erfinv lex n y w s) k =
    Some (let '(p1, p2) := percentiles (cl_alpha lex y w s k) (cl_beta lex y w s k) in
          gaussian_matching erfinv (ppf (cl_alpha lex y w s k) (cl_beta lex y w s k)) p1 p2).
Proof.
  intros Hy Hw Hs Pw B Hk.
  assert (By : forall j, at_row y j = 0 \/ at_row y j = 1).
  { intro j. destruct (Nat.lt_ge_cases j (length y)); [apply B, nth_In; auto|left; apply nth_overflow; auto]. }
  assert (Hu : per_row lex (map (unlink_func Logit) s)) by (apply pr_map; auto).
  assert (Hb : per_row lex (map2 boost_weight y (map (unlink_func Logit) s))) by (apply pr_map2; auto).
  assert (Hc : per_row lex (classifier_weights y w s)) by (apply pr_map2; auto).
  assert (V : forall j, (j < length lex)%nat -> at_row (classifier_weights y w s) j =
     at_row w j * Rabs (at_row y j - unlink_func Logit (at_row s j))).
  { intros j Hj. unfold classifier_weights. cbv beta. rewrite (at_map2 lex), (at_map2 lex), (at_map lex) by auto.
    rewrite boost_weight_value by apply By. reflexivity. }
  assert (EA : bin_total lex (map2 Rmult (classifier_weights y w s) y) k =
     bin_sum lex (fun j => at_row w j * Rabs (at_row y j - unlink_func Logit (at_row s j)) * at_row y j) k).
  { rewrite bin_total_sum by (apply pr_map2; auto). apply bin_sum_ext. intros j Hj. cbv beta. rewrite (at_map2 lex) by auto.
    cbv beta in V. rewrite V by auto. reflexivity. }
  assert (EB : bin_total lex (map2 (fun w v => w * (1 - v)) (classifier_weights y w s) y) k =
     bin_sum lex (fun j => at_row w j * Rabs (at_row y j - unlink_func Logit (at_row s j)) * (1 - at_row y j)) k).
  { rewrite bin_total_sum by (apply pr_map2; auto). apply bin_sum_ext. intros j Hj. cbv beta. rewrite (at_map2 lex) by auto.
    cbv beta in V. rewrite V by auto. reflexivity. }
  assert (PA : 0 <= bin_sum lex (fun j => at_row w j * Rabs (at_row y j - unlink_func Logit (at_row s j)) * at_row y j) k).
  { apply bin_sum_nonneg. intros j _. pose proof (nonneg_at w j Pw). pose proof (Rabs_pos (nth j y 0 - unlink_func Logit (nth j s 0))).
    apply Rmult_le_pos; [apply Rmult_le_pos; auto|]. destruct (By j) as [-> | ->]; lra. }
  assert (PB : 0 <= bin_sum lex (fun j => at_row w j * Rabs (at_row y j - unlink_func Logit (at_row s j)) * (1 - at_row y j)) k).
  { apply bin_sum_nonneg. intros j _. pose proof (nonneg_at w j Pw). pose proof (Rabs_pos (nth j y 0 - unlink_func Logit (nth j s 0))).
    apply Rmult_le_pos; [apply Rmult_le_pos; auto|]. destruct (By j) as [-> | ->]; lra. }
  split; [unfold cl_alpha; lra|]. split; [unfold cl_beta; lra|].
  unfold classifier_parameters. cbv zeta.
  rewrite (nth_error_map2 _ _ _ k _ _ (nth_bincounts _ _ n k Hk) (nth_bincounts _ _ n k Hk)). f_equal.
  rewrite EA, EB. unfold classifier_bin, beta_posterior.
  set (A := bin_sum _ _ _) in *. set (A' := bin_sum lex (fun j => _ * (1 - _)) k) in *.
  replace (Rltb A 0) with false by (symmetry; apply Rltb_false; lra).
  replace (Rltb A' 0) with false by (symmetry; apply Rltb_false; lra).
  unfold beta_prior. rewrite (Rplus_comm A), (Rplus_comm A'). reflexivity.
Qed.
End Matching.

Lemma classifier_estimates ppf erfinv :
  (forall a b q, 0 < a -> 0 < b -> 0 < q < 1 -> 0 < ppf a b q < 1) ->
  (forall a b q q', 0 < a -> 0 < b -> 0 < q -> q < q' -> q' < 1 -> ppf a b q < ppf a b q') ->
  (forall t t', -1 < t -> t < t' -> t' < 1 -> erfinv t < erfinv t') ->
  forall lex n y w s k, per_row lex y -> per_row lex w -> per_row lex s -> nonneg w ->
  (forall x, In x y -> x = 0 \/ x = 1) -> (k < n)%nat ->
  exists alpha beta hi lo mu sigma,
    alpha = 1001 / 1000 + bin_sum lex (fun j => at_row w j * Rabs (at_row y j - unlink_func Logit (at_row s j)) * at_row y j) k /\
    beta = 1001 / 1000 + bin_sum lex (fun j => at_row w j * Rabs (at_row y j - unlink_func Logit (at_row s j)) * (1 - at_row y j)) k /\
    1 < alpha /\ 1 < beta /\ 5 / 100 < lo /\ hi < 95 / 100 /\ hi = lo + 1 / 2 /\
    (alpha = beta -> lo = 1 / 4) /\ (beta < alpha -> lo < 1 / 4) /\ (alpha < beta -> 1 / 4 < lo) /\
    nth_error (classifier_parameters ppf erfinv lex n y w s) k = Some (Some (mu, sigma)) /\ 0 < sigma /\
    unlink_func Logit (mu + sigma * (sqrt 2 * erfinv (2 * hi - 1))) = ppf alpha beta hi /\
    unlink_func Logit (mu + sigma * (sqrt 2 * erfinv (2 * lo - 1))) = ppf alpha beta lo.
Proof.
  intros H1 H2 H3 lex n y w s k Hy Hw Hs Pw B Hk.
  destruct (cl_bin ppf erfinv lex n y w s k Hy Hw Hs Pw B Hk) as (A1 & A2 & E).
  set (alpha := cl_alpha lex y w s k) in *. set (beta := cl_beta lex y w s k) in *.
  cbn [percentiles] in E. set (r := alpha / (alpha + beta)) in *.
  assert (R1 : 0 < r) by (apply Rdiv_lt_0_compat; lra).
  assert (Er : r * (alpha + beta) = alpha) by (unfold r; field; lra).
  assert (R2 : r < 1) by (apply (Rmult_lt_reg_r (alpha + beta)); lra).
  set (shift := 4 / 10 * (r - 1 / 2)) in *.
  assert (S1 : -1 / 5 < shift < 1 / 5) by (unfold shift; lra).
  destruct (matching ppf erfinv H1 H2 H3 alpha beta (3 / 4 - shift) (1 / 4 - shift)) as (mu & sigma & M1 & M2 & M3 & M4); try lra.
  exists alpha, beta, (3 / 4 - shift), (1 / 4 - shift), mu, sigma.
  repeat (split; [first [reflexivity | lra | idtac] | ]); auto.
  - intro Heq. assert (r = 1 / 2) by (apply (Rmult_eq_reg_r (alpha + beta)); lra). unfold shift. lra.
  - intro Hlt. assert (1 / 2 < r) by (apply (Rmult_lt_reg_r (alpha + beta)); lra). unfold shift. lra.
  - intro Hlt. assert (r < 1 / 2) by (apply (Rmult_lt_reg_r (alpha + beta)); lra). unfold shift. lra.
  - unfold percentiles in E. cbv zeta in E. fold r in E. fold shift in E. rewrite M1 in E. exact E.
Qed.

(** A bin with no rows is neutral. *)
Lemma classifier_empty_bin ppf erfinv :
  (forall a b q, 0 < a -> 0 < b -> 0 < q < 1 -> 0 < ppf a b q < 1) ->
  (forall a b q q', 0 < a -> 0 < b -> 0 < q -> q < q' -> q' < 1 -> ppf a b q < ppf a b q') ->
  (forall t t', -1 < t -> t < t' -> t' < 1 -> erfinv t < erfinv t') ->
  (forall a q, 0 < a -> 0 < q < 1 -> ppf a a (1 - q) = 1 - ppf a a q) ->
  (forall t, -1 < t < 1 -> erfinv (- t) = - erfinv t) ->
  forall lex n y w s k, per_row lex y -> per_row lex w -> per_row lex s -> nonneg w ->
  (forall x, In x y -> x = 0 \/ x = 1) -> (k < n)%nat -> (forall j, ~ row_in lex k j) ->
  exists sigma, nth_error (classifier_parameters ppf erfinv lex n y w s) k = Some (Some (0, sigma)).
Proof.
  intros H1 H2 H3 H4 H5 lex n y w s k Hy Hw Hs Pw B Hk He.
  destruct (cl_bin ppf erfinv lex n y w s k Hy Hw Hs Pw B Hk) as (_ & _ & E). revert E.
  unfold cl_alpha, cl_beta. rewrite !bin_sum_empty by auto. rewrite Rplus_0_r. intro E.
  unfold percentiles in E. cbv zeta in E.
  replace (4 / 10 * (1001 / 1000 / (1001 / 1000 + 1001 / 1000) - 1 / 2)) with 0 in E by field.
  rewrite !Rminus_0_r in E.
  set (a := 1001 / 1000) in *. assert (Ha : 0 < a) by (unfold a; lra).
  unfold gaussian_matching in E.
  pose proof (H1 a a (3 / 4) Ha Ha ltac:(lra)) as P1. pose proof (H1 a a (1 / 4) Ha Ha ltac:(lra)) as P2.
  pose proof (H2 a a (1 / 4) (3 / 4) Ha Ha ltac:(lra) ltac:(lra) ltac:(lra)) as M.
  rewrite !logit_some in E by auto. cbv zeta in E.
  assert (S1 : ppf a a (3 / 4) = 1 - ppf a a (1 / 4)).
  { replace (3 / 4) with (1 - 1 / 4) by field. apply H4; lra. }
  assert (S2 : ln (ppf a a (3 / 4) / (1 - ppf a a (3 / 4))) = - ln (ppf a a (1 / 4) / (1 - ppf a a (1 / 4)))).
  { rewrite S1. replace ((1 - ppf a a (1 / 4)) / (1 - (1 - ppf a a (1 / 4)))) with (/ (ppf a a (1 / 4) / (1 - ppf a a (1 / 4)))) by (field; lra).
    apply ln_Rinv. apply Rdiv_lt_0_compat; lra. }
  assert (S3 : matching_coefficient erfinv (3 / 4) = - matching_coefficient erfinv (1 / 4)).
  { unfold matching_coefficient. replace (2 * (3 / 4) - 1) with (- (2 * (1 / 4) - 1)) by field. rewrite H5 by lra. ring. }
  assert (Z : matching_coefficient erfinv (1 / 4) < 0).
  { unfold matching_coefficient. assert (0 < sqrt 2) by (apply sqrt_lt_R0; lra).
    pose proof (H3 (2 * (1 / 4) - 1) (2 * (3 / 4) - 1) ltac:(lra) ltac:(lra) ltac:(lra)).
    replace (2 * (3 / 4) - 1) with (- (2 * (1 / 4) - 1)) in H0 by field. rewrite H5 in H0 by lra.
    rewrite <- (Rmult_0_r (sqrt 2)). apply Rmult_lt_compat_l; lra. }
  rewrite S2, S3 in E.
  set (q := ln _) in E. set (c := matching_coefficient erfinv (1 / 4)) in *.
  replace (- q - (- q - q) / (- c - c) * - c) with 0 in E by (field; lra).
  eexists. exact E.
Qed.
