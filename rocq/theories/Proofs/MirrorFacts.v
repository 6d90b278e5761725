(** Mirrored training data give the mirrored model. *)
From Coq Require Import ZArith QArith Qround List Bool Reals Lra Lia.
From Verif.Model Require Import Num LexBins Train Predict Link Estimators Gbs WholeFit Regularize BinSmoothers.
From Verif.Spec Require Import DataSpec MirrorSpec.
From Verif.Proofs Require Import LinkFacts TrainFacts Simulation ChainFacts OrderFacts ShiftFacts.
Import ListNotations.
Local Open Scope R_scope.

Notation neg := (map Ropp).

Lemma neg_map2 (f : R -> R -> R) (E : forall a b, f (- a) (- b) = - f a b) x : forall y, map2 f (neg x) (neg y) = neg (map2 f x y).
Proof. induction x as [|a x IH]; intros [|b y]; cbn; auto. rewrite E. f_equal. apply IH. Qed.
Lemma neg_vadd x y : vadd (neg x) (neg y) = neg (vadd x y).
Proof. apply neg_map2. intros; lra. Qed.
Lemma neg_vsub x y : vsub (neg x) (neg y) = neg (vsub x y).
Proof. apply neg_map2. intros; lra. Qed.
Lemma neg_sum x : sumR (neg x) = - sumR x.
Proof. induction x as [|a x IH]; cbn; [lra|]. rewrite IH. lra. Qed.
Lemma neg_nth x i : nth i (neg x) 0 = - nth i x 0.
Proof. rewrite <- Ropp_0 at 1. apply map_nth. Qed.
Lemma neg_gather v bins : gather (neg v) bins = neg (gather v bins).
Proof. unfold gather. rewrite map_map. apply map_ext. intro b. apply neg_nth. Qed.
Lemma neg_abs x : map Rabs (neg x) = map Rabs x.
Proof. rewrite map_map. apply map_ext. intro. apply Rabs_Ropp. Qed.
Lemma neg_firstn n : forall x, firstn n (neg x) = neg (firstn n x).
Proof. induction n; intros [|a x]; cbn; auto. f_equal; auto. Qed.
Lemma neg_removelast x : removelast (neg x) = neg (removelast x).
Proof. induction x as [|a [|b x] IH]; cbn in *; auto. f_equal. auto. Qed.
Lemma neg_zeros n : zeros n = neg (zeros n).
Proof. unfold zeros. induction n; cbn; auto. f_equal; auto. lra. Qed.
Lemma neg_mul_l x : forall w, map2 Rmult (neg x) w = neg (map2 Rmult x w).
Proof. induction x as [|a x IH]; intros [|b w]; cbn; auto. f_equal; [lra|auto]. Qed.
Lemma neg_mul_r w : forall x, map2 Rmult w (neg x) = neg (map2 Rmult w x).
Proof. induction w as [|b w IH]; intros [|a x]; cbn; auto. f_equal; [lra|auto]. Qed.
Lemma neg_total lex : forall x k, bin_total lex (neg x) k = - bin_total lex x k.
Proof. induction lex as [|b lex IH]; intros [|a x] k; cbn; try lra. rewrite IH. destruct (Nat.eqb b k); lra. Qed.

Lemma neg_centred f w : centred (neg f) w = neg (centred f w).
Proof. unfold centred. rewrite !map_map. apply map_ext. intro x. rewrite neg_mul_l, neg_sum. unfold Rdiv. lra. Qed.
Lemma neg_calibrate m w f : calibrate m w (neg f) = neg (calibrate m w f).
Proof.
  unfold calibrate. destruct m; rewrite ?neg_removelast, neg_centred; auto. rewrite map_app. cbn. rewrite Ropp_0. auto.
Qed.
Lemma neg_calibration k F w i f : kind_calibration k F w i (neg f) = neg (kind_calibration k F w i f).
Proof. destruct k; cbn; auto. unfold location_calibration. destruct (nth_error F i); auto. apply neg_calibrate. Qed.

(** ** Estimates *)
Definition mirror_estimate (e : option (R * R)) : option (R * R) := option_map (fun e => (- fst e, snd e)) e.

Lemma neg_weighted_mean y w : weighted_mean (neg y) w = option_map Ropp (weighted_mean y w).
Proof. unfold weighted_mean. destruct (Reqb (sumR w) 0); auto. cbn. rewrite neg_mul_l, neg_sum. f_equal. unfold Rdiv. lra. Qed.
Lemma neg_variance_prior y w : variance_prior (neg y) w = variance_prior y w.
Proof.
  unfold variance_prior. rewrite neg_weighted_mean. destruct (weighted_mean y w) as [m|]; cbn; auto.
  assert (E : map2 (fun yi wi => (yi - - m) * (yi - - m) * wi) (neg y) w = map2 (fun yi wi => (yi - m) * (yi - m) * wi) y w).
  { clear. revert w. induction y as [|a y IH]; intros [|b w]; cbn; auto. f_equal; [ring|apply IH]. }
  rewrite E. auto.
Qed.
Lemma neg_residuals lex y w k : squared_residuals lex (neg y) w k = squared_residuals lex y w k.
Proof.
  unfold squared_residuals. destruct (in_bin lex k && Reqb (bin_total lex w k) 0); auto. cbv zeta. f_equal.
  rewrite neg_mul_r, neg_total. set (m := bin_total lex (map2 Rmult w y) k / bin_total lex w k).
  replace (- bin_total lex (map2 Rmult w y) k / bin_total lex w k) with (- m) by (unfold m, Rdiv; lra).
  f_equal. clearbody m. clear. revert y. induction w as [|v w IH]; intros [|a y]; cbn; auto. f_equal; [ring|apply IH].
Qed.
Lemma neg_location lex n y w score :
  location_parameters lex n (neg y) w (neg score) = map mirror_estimate (location_parameters lex n y w score).
Proof.
  unfold location_parameters. cbv zeta.
  assert (V : precalc_variance_y lex n (neg y) w = precalc_variance_y lex n y w).
  { unfold precalc_variance_y. apply map_ext. intro k. rewrite neg_variance_prior, neg_residuals. auto. }
  rewrite V, (neg_map2 Rminus), neg_mul_r by (intros; lra).
  set (vs := precalc_variance_y lex n y w). set (wv := map2 _ w lex). set (x := map2 Rmult wv _). clearbody vs wv x.
  unfold calc_factors_generic. generalize (seq 0 n). intro ks. revert vs. induction ks as [|k ks IH]; intros [|v vs]; cbn; auto.
  f_equal; auto. destruct v; auto. rewrite neg_total. destruct (Reqb _ 0); auto. cbn. f_equal. f_equal. unfold Rdiv. lra.
Qed.
Lemma neg_gbs al lex n y w score :
  gbs_parameters al lex n (neg y) w (neg score) = map mirror_estimate (gbs_parameters al lex n y w score).
Proof.
  unfold gbs_parameters. cbv zeta. rewrite (neg_map2 Rminus), neg_mul_l by (intros; lra).
  set (x := map2 Rmult (map2 Rminus y score) w). set (d := map _ w). rewrite !neg_mul_l, neg_mul_r.
  assert (NN : neg (neg (map2 Rmult x x)) = map2 Rmult x x) by (rewrite map_map; rewrite <- map_id; apply map_ext; intro; lra).
  rewrite NN, map_map. apply map_ext. intro k. unfold gbs_bin. cbv zeta. rewrite !neg_total.
  destruct (Reqb _ 0); auto.
  set (a := bin_total lex x k). set (b := bin_total lex d k + 1).
  replace (b ^ 2 * bin_total lex (map2 Rmult x x) k - 2 * - a * b * - bin_total lex (map2 Rmult x d) k + (- a) ^ 2 * (bin_total lex (map2 Rmult d d) k + 1 ^ 2))
    with (b ^ 2 * bin_total lex (map2 Rmult x x) k - 2 * a * b * bin_total lex (map2 Rmult x d) k + a ^ 2 * (bin_total lex (map2 Rmult d d) k + 1 ^ 2)) by ring.
  destruct (Rltb _ 0); auto. cbn. f_equal. f_equal. unfold Rdiv. lra.
Qed.

Lemma unlink_mirror v : unlink_func Logit (- v) = 1 - unlink_func Logit v.
Proof.
  cbn. rewrite Ropp_involutive. pose proof (exp_pos v) as P. rewrite exp_Ropp. field. lra.
Qed.
Lemma unlink_inside v : 0 < unlink_func Logit v < 1.
Proof.
  cbn. pose proof (exp_pos (- v)) as P. split.
  - apply Rdiv_lt_0_compat; lra.
  - apply Rmult_lt_reg_r with (1 + exp (- v)); [lra|]. unfold Rdiv. rewrite Rmult_assoc, Rinv_l by lra. lra.
Qed.
Lemma link_mirror p : link_func Logit (1 - p) = option_map Ropp (link_func Logit p).
Proof.
  cbn. destruct (Rltb 0 p) eqn:A, (Rltb p 1) eqn:B; cbn.
  - apply Rltb_iff in A, B. destruct (Rltb 0 (1 - p)) eqn:A'; [|apply Rltb_false in A'; lra].
    destruct (Rltb (1 - p) 1) eqn:B'; [|apply Rltb_false in B'; lra]. cbn. f_equal.
    rewrite <- ln_Rinv by (apply Rdiv_lt_0_compat; lra). f_equal. field. lra.
  - apply Rltb_false in B. destruct (Rltb 0 (1 - p)) eqn:A'; auto. apply Rltb_iff in A'. lra.
  - apply Rltb_false in A. destruct (Rltb (1 - p) 1) eqn:B'; [apply Rltb_iff in B'; lra|]. rewrite andb_false_r. auto.
  - apply Rltb_false in A, B. lra.
Qed.

Section Classes.
Variable bppf : R -> R -> R -> R.
Variable erfinv : R -> R.
Hypothesis HB : mirrored_beta bppf.
Hypothesis HE : odd_increasing erfinv.

Lemma posterior_positive a b : 0 < fst (beta_posterior a b) /\ 0 < snd (beta_posterior a b).
Proof.
  unfold beta_posterior, beta_prior. cbn [fst snd]. split.
  - destruct (Rltb a 0) eqn:E; [lra|]. apply Rltb_false in E. lra.
  - destruct (Rltb b 0) eqn:E; [lra|]. apply Rltb_false in E. lra.
Qed.
Lemma percentile_bounds a b : 0 < a -> 0 < b ->
  0 < snd (percentiles a b) /\ fst (percentiles a b) < 1 /\ snd (percentiles a b) < fst (percentiles a b).
Proof.
  intros A B. unfold percentiles. cbn [fst snd].
  assert (Q : 0 < a / (a + b) < 1).
  { split; [apply Rdiv_lt_0_compat; lra|]. apply Rmult_lt_reg_r with (a + b); [lra|]. unfold Rdiv. rewrite Rmult_assoc, Rinv_l by lra. lra. }
  lra.
Qed.
Lemma percentiles_mirror a b : 0 < a -> 0 < b -> percentiles b a = (1 - snd (percentiles a b), 1 - fst (percentiles a b)).
Proof. intros A B. unfold percentiles. cbn [fst snd]. f_equal; field; lra. Qed.
Lemma coefficient_mirror p : matching_coefficient erfinv (1 - p) = - matching_coefficient erfinv p.
Proof.
  unfold matching_coefficient. replace (2 * (1 - p) - 1) with (- (2 * p - 1)) by ring. rewrite (proj1 HE). ring.
Qed.
Lemma coefficient_grows p q : 0 < p -> p < q -> q < 1 -> matching_coefficient erfinv p < matching_coefficient erfinv q.
Proof.
  intros. unfold matching_coefficient. apply Rmult_lt_compat_l; [apply sqrt_lt_R0; lra|]. apply (proj2 HE); lra.
Qed.
Lemma inside_link p : 0 < p < 1 -> link_func Logit p = Some (ln (p / (1 - p))).
Proof.
  intros [A B]. cbn. apply Rltb_iff in A, B. rewrite A, B. auto.
Qed.

Lemma bin_mirror al be : classifier_bin bppf erfinv be al = mirror_estimate (classifier_bin bppf erfinv al be) /\
  classifier_bin bppf erfinv al be <> None.
Proof.
  unfold classifier_bin. destruct (posterior_positive al be) as [A B].
  assert (S : beta_posterior be al = (snd (beta_posterior al be), fst (beta_posterior al be))) by reflexivity.
  rewrite S. destruct (beta_posterior al be) as [a b]. cbn [fst snd] in *. clear S.
  destruct (percentile_bounds a b A B) as [P2 [P1 PL]]. rewrite (percentiles_mirror a b A B).
  destruct (percentiles a b) as [p1 p2]. cbn [fst snd] in *.
  unfold gaussian_matching.
  destruct (HB a b p1 A B ltac:(lra)) as [I1 M1]. destruct (HB a b p2 A B ltac:(lra)) as [I2 M2].
  rewrite M1, M2, !link_mirror, !coefficient_mirror, (inside_link _ I1), (inside_link _ I2). cbn [option_map mirror_estimate fst snd].
  pose proof (coefficient_grows p2 p1 P2 PL P1) as G.
  set (q1 := ln (bppf a b p1 / _)). set (q2 := ln (bppf a b p2 / _)).
  set (a1 := matching_coefficient erfinv p1) in *. set (a2 := matching_coefficient erfinv p2) in *.
  split; [|discriminate]. cbn. f_equal. f_equal; field; lra.
Qed.

Lemma weights_mirror y : forall w score, (forall v, In v y -> v = 0 \/ v = 1) ->
  classifier_weights (map (fun v => 1 - v) y) w (neg score) = classifier_weights y w score.
Proof.
  unfold classifier_weights. intros w score Y. f_equal. rewrite map_map. revert score.
  induction y as [|v y IH]; intros [|s score]; cbn [map map2]; auto. f_equal; [|apply IH; intros; apply Y; right; auto].
  rewrite unlink_mirror. pose proof (unlink_inside s) as I. set (p := unlink_func Logit s) in *.
  unfold boost_weight. cbv zeta.
  assert (X : forall q, 0 < q < 1 -> (if Reqb (if Reqb q 0 then epsilon else q) 1 then 1 - epsilon else if Reqb q 0 then epsilon else q) = q).
  { intros q Q. assert (E0 : Reqb q 0 = false) by (apply Reqb_false_iff; lra). rewrite E0.
    assert (E1 : Reqb q 1 = false) by (apply Reqb_false_iff; lra). rewrite E1. auto. }
  rewrite !X by lra.
  destruct (Y v (or_introl eq_refl)) as [-> | ->].
  - assert (E0 : Reqb 0 0 = true) by (apply Reqb_iff; auto). assert (E1 : Reqb (1 - 0) 0 = false) by (apply Reqb_false_iff; lra).
    rewrite E0, E1. ring.
  - assert (E0 : Reqb 1 0 = false) by (apply Reqb_false_iff; lra). assert (E1 : Reqb (1 - 1) 0 = true) by (apply Reqb_iff; ring).
    rewrite E0, E1. auto.
Qed.

Lemma classifier_mirror lex n y w score : (forall v, In v y -> v = 0 \/ v = 1) ->
  classifier_parameters bppf erfinv lex n (map (fun v => 1 - v) y) w (neg score) =
    map mirror_estimate (classifier_parameters bppf erfinv lex n y w score) /\
  Forall (fun e => e <> None) (classifier_parameters bppf erfinv lex n y w score).
Proof.
  intro Y. unfold classifier_parameters. rewrite weights_mirror by auto. cbv zeta.
  set (ws := classifier_weights y w score). clearbody ws. clear Y score w.
  assert (E1 : map2 Rmult ws (map (fun v => 1 - v) y) = map2 (fun w v => w * (1 - v)) ws y).
  { revert y. induction ws as [|x ws IH]; intros [|v y]; cbn; auto. f_equal. apply IH. }
  assert (E2 : map2 (fun w v => w * (1 - v)) ws (map (fun v => 1 - v) y) = map2 Rmult ws y).
  { revert y E1. induction ws as [|x ws IH]; intros [|v y] E1; cbn; auto. f_equal; [ring|]. apply IH. inversion E1; auto. }
  rewrite E1, E2. unfold bincounts. generalize (seq 0 n). intro ks.
  split; induction ks as [|k ks IH]; cbn; auto.
  - f_equal; auto. apply bin_mirror.
  - constructor; auto. apply bin_mirror.
Qed.
End Classes.

(** ** All estimates are finite *)
Lemma total_nonneg lex : forall w k, (forall x, In x w -> 0 <= x) -> 0 <= bin_total lex w k.
Proof.
  induction lex as [|b lex IH]; intros [|x w] k H; cbn; try lra.
  pose proof (H x (or_introl eq_refl)). pose proof (IH w k (fun y Y => H y (or_intror Y))). destruct (Nat.eqb b k); lra.
Qed.
Lemma total_positive lex : forall w k, length lex = length w -> (forall x, In x w -> 0 < x) -> in_bin lex k = true -> 0 < bin_total lex w k.
Proof.
  unfold in_bin. induction lex as [|b lex IH]; intros [|x w] k L H I; cbn in *; try discriminate.
  pose proof (H x (or_introl eq_refl)). apply orb_true_iff in I. rewrite Nat.eqb_sym.
  destruct (Nat.eqb k b) eqn:E.
  - pose proof (total_nonneg lex w k ltac:(intros y Y; apply Rlt_le, H; auto)). lra.
  - destruct I as [I|I]; [discriminate|]. pose proof (IH w k ltac:(lia) ltac:(auto) I). lra.
Qed.
Lemma sum_positive w : w <> [] -> (forall x, In x w -> 0 < x) -> 0 < sumR w.
Proof.
  intros N H. destruct w as [|x w]; [congruence|]. cbn. pose proof (H x (or_introl eq_refl)).
  assert (P : forall v, (forall y, In y v -> 0 < y) -> 0 <= sumR v).
  { induction v as [|y v IH]; cbn; intros; [lra|]. pose proof (H1 y (or_introl eq_refl)). pose proof (IH ltac:(auto)). lra. }
  pose proof (P w ltac:(intros; apply H; right; auto)). lra.
Qed.
Lemma in_map2 {A B C} (f : A -> B -> C) x : forall y z, In z (map2 f x y) -> exists a b, In a x /\ In b y /\ z = f a b.
Proof.
  induction x as [|a x IH]; intros [|b y] z H; cbn in H; try contradiction. destruct H as [<-|H].
  - exists a, b. cbn; auto.
  - destruct (IH y z H) as [a' [b' [? [? ?]]]]. exists a', b'. cbn; auto.
Qed.

Lemma squared_total_nonneg lex w m : (forall x, In x w -> 0 < x) -> forall y k,
  0 <= bin_total lex (map2 (fun wi yi => wi * (yi - m) ^ 2) w y) k.
Proof.
  intros H y k. apply total_nonneg. intros z Z. apply in_map2 in Z. destruct Z as [a [b [A [_ ->]]]].
  apply Rmult_le_pos; [apply Rlt_le, H; auto|apply pow2_ge_0].
Qed.

Lemma location_finite lex n y w score : w <> [] -> length lex = length w -> (forall x, In x w -> 0 < x) ->
  Forall (fun e => e <> None) (location_parameters lex n y w score).
Proof.
  intros N L P. unfold location_parameters. cbv zeta.
  assert (V : exists v, variance_prior y w = Some v /\ 0 < v).
  { unfold variance_prior, weighted_mean. pose proof (sum_positive w N P) as S.
    assert (E : Reqb (sumR w) 0 = false) by (apply Reqb_false_iff; lra). rewrite E. eexists. split; [reflexivity|].
    match goal with |- context [Rleb ?a ?b] => destruct (Rleb a b) eqn:B end; [lra|].
    unfold Rleb in B. destruct (Rle_dec _ _); [discriminate|]. lra. }
  destruct V as [v [V VP]].
  assert (VS : Forall (fun r => exists u, r = Some u /\ 0 < u) (precalc_variance_y lex n y w)).
  { unfold precalc_variance_y. apply Forall_forall. intros r R. apply in_map_iff in R. destruct R as [k [R _]]. subst r.
    rewrite V. unfold squared_residuals. pose proof (total_nonneg lex w k ltac:(intros; apply Rlt_le; auto)) as T.
    destruct (in_bin lex k) eqn:I; cbn [andb].
    - pose proof (total_positive lex w k L P I) as T'. assert (E : Reqb (bin_total lex w k) 0 = false) by (apply Reqb_false_iff; lra). rewrite E.
      cbv zeta. eexists. split; [reflexivity|]. apply Rdiv_lt_0_compat; [|lra].
      match goal with |- context [bin_total lex ?x k] => pose proof (squared_total_nonneg lex w (bin_total lex (map2 Rmult w y) k / bin_total lex w k) P y k) end. lra.
    - cbv zeta. eexists. split; [reflexivity|]. apply Rdiv_lt_0_compat; [|lra].
      pose proof (squared_total_nonneg lex w (bin_total lex (map2 Rmult w y) k / bin_total lex w k) P y k). lra. }
  set (vs := precalc_variance_y lex n y w) in *.
  set (wv := map2 _ w lex). set (x := map2 Rmult wv _).
  assert (WP : forall z, In z wv -> 0 <= z).
  { unfold wv. intros z Z. apply in_map2 in Z. destruct Z as [a [b [A [_ ->]]]]. apply Rlt_le, Rdiv_lt_0_compat; [auto|].
    destruct (nth_in_or_default b vs None) as [Q|Q].
    - rewrite Forall_forall in VS. destruct (VS _ Q) as [u [-> U]]. auto.
    - rewrite Q. lra. }
  clearbody vs wv x. unfold calc_factors_generic. generalize (seq 0 n). intro ks. revert vs VS.
  induction ks as [|k ks IH]; intros [|r vs] VS; cbn; auto. inversion VS; subst. constructor; auto.
  destruct H1 as [u [-> _]]. pose proof (total_nonneg lex wv k WP).
  assert (E : Reqb (bin_total lex wv k + 1 / 100) 0 = false) by (apply Reqb_false_iff; lra). rewrite E. discriminate.
Qed.

Lemma cauchy lex x d k a b :
  bin_total lex (map2 (fun u v => (b * u - a * v) ^ 2) x d) k =
  b ^ 2 * bin_total lex (map2 Rmult x x) k - 2 * a * b * bin_total lex (map2 Rmult x d) k + a ^ 2 * bin_total lex (map2 Rmult d d) k \/
  length x <> length d.
Proof.
  destruct (Nat.eq_dec (length x) (length d)) as [L|]; [left|right; auto].
  revert x d L. induction lex as [|l lex IH]; intros [|u x] [|v d] L; cbn in L; try discriminate; cbn [bin_total map2]; try ring.
  pose proof (IH x d ltac:(lia)) as E. rewrite E. destruct (Nat.eqb l k); ring.
Qed.
Lemma gbs_finite al lex n y w score : (forall x, In x w -> 0 <= x) -> -1 <= al -> length y = length w -> length score = length w ->
  Forall (fun e => e <> None) (gbs_parameters al lex n y w score).
Proof.
  intros P A L1 L2. unfold gbs_parameters. cbv zeta. apply Forall_forall. intros e E. apply in_map_iff in E. destruct E as [k [E _]]. subst e.
  set (x := map2 Rmult (map2 Rminus y score) w). set (d := map _ w).
  assert (DP : 0 <= bin_total lex d k).
  { apply total_nonneg. intros z Z. unfold d in Z. apply in_map_iff in Z. destruct Z as [u [<- U]]. apply Rmult_le_pos; [auto|lra]. }
  assert (LL : forall (a b : list R) (f : R -> R -> R), length a = length b -> length (map2 f a b) = length b).
  { intros a b f. revert b. induction a as [|u a IH]; intros [|v b] L; cbn in *; try discriminate; auto. }
  assert (LX : length x = length d). { unfold x, d. rewrite map_length. apply LL. rewrite LL; congruence. }
  unfold gbs_bin. cbv zeta. assert (E : Reqb (bin_total lex d k + 1) 0 = false) by (apply Reqb_false_iff; lra). rewrite E.
  set (a := bin_total lex x k). set (b := bin_total lex d k + 1) in *.
  destruct (cauchy lex x d k a b) as [C|C]; [|contradiction].
  match goal with |- context [Rltb ?q 0] => assert (N : 0 <= q) end.
  { unfold Rdiv. apply Rmult_le_pos; [|apply Rlt_le, Rinv_0_lt_compat, pow_lt; unfold b; lra].
    assert (S : 0 <= bin_total lex (map2 (fun u v => (b * u - a * v) ^ 2) x d) k).
    { apply total_nonneg. intros z Z. apply in_map2 in Z. destruct Z as [? [? [_ [_ ->]]]]. apply pow2_ge_0. }
    pose proof (pow2_ge_0 a). lra. }
  destruct (Rltb _ 0) eqn:Q; [apply Rltb_iff in Q; lra|discriminate].
Qed.

(** ** The training *)
Section Mirror.
Variable gm : R -> R.
Variable bppf : R -> R -> R -> R.
Variable erfinv : R -> R.
Variable bad : R.
Variable k : kind.
Variable prior_column : bool.
Variable gs : list group.
Variable cfg : settings.
Variable rate : nat -> nat -> R.
Variable D : list sample.
Let D' := map (mirror_row k) D.
Let n := length D.

(** What the kind has to provide. *)
Hypothesis EST : forall lex m score, length lex = n -> length score = n ->
  estimates gm bppf erfinv k lex m (map (mirror_value k) (map x_y D)) (map x_w D) (neg score) =
    map mirror_estimate (estimates gm bppf erfinv k lex m (map x_y D) (map x_w D) score) /\
  Forall (fun e => e <> None) (estimates gm bppf erfinv k lex m (map x_y D) (map x_w D) score).
Hypothesis LOSS : forall score, length score = n ->
  kind_loss bad k (map (mirror_value k) (map x_y D)) (map x_w D) (neg score) = kind_loss bad k (map x_y D) (map x_w D) score.
Hypothesis LINK : forall v, link_option (kind_link k) (option_map (mirror_value k) v) = option_map Ropp (link_option (kind_link k) v).
Hypothesis LOG : c_log cfg = false.
Hypothesis SM : forall g, In g gs -> odd_smoother (g_smoother g).

Lemma bind_mirror : forall hs i, bind_groups D' i hs = bind_groups D i hs.
Proof. induction hs as [|h hs IH]; intro i; cbn; auto. rewrite IH. f_equal. unfold bind_group. f_equal. unfold D'. rewrite map_map. auto. Qed.
Lemma ys_mirror : map x_y D' = map (mirror_value k) (map x_y D).
Proof. unfold D'. rewrite !map_map. auto. Qed.
Lemma ws_mirror : map x_w D' = map x_w D.
Proof. unfold D'. rewrite map_map. auto. Qed.

Definition rpm (p q : preds) : Prop := p_factors q = neg (p_factors p) /\ length (p_factors p) = n.

Lemma estimates_mirror j p q : rpm p q ->
  group_estimates gm bppf erfinv k (bind_groups D 0 gs) (map x_y D') (map x_w D') j q =
    map mirror_estimate (group_estimates gm bppf erfinv k (bind_groups D 0 gs) (map x_y D) (map x_w D) j p) /\
  Forall (fun e => e <> None) (group_estimates gm bppf erfinv k (bind_groups D 0 gs) (map x_y D) (map x_w D) j p).
Proof.
  intros [P L]. unfold group_estimates. destruct (nth_error gs j) as [g|] eqn:G.
  - rewrite (bind_nth gs 0 j g G). cbn [Nat.add]. rewrite P, ys_mirror, ws_mirror. apply EST; auto.
    rewrite (f_lex_map (bind_group D j g) D j eq_refl), map_length. auto.
  - assert (E : nth_error (bind_groups D 0 gs) j = None).
    { apply nth_error_None in G. apply nth_error_None.
      assert (X : forall hs i, length (bind_groups D i hs) = length hs) by (induction hs; intro; cbn; auto). rewrite X. auto. }
    rewrite E. auto.
Qed.
Lemma values_mirror es : Forall (fun e => e <> None) es ->
  map (estimate_value bad) (map mirror_estimate es) = neg (map (estimate_value bad) es) /\
  map (estimate_uncertainty bad) (map mirror_estimate es) = map (estimate_uncertainty bad) es.
Proof.
  induction 1 as [|e es H _ [I1 I2]]; cbn; auto. destruct e as [[f u]|]; [|congruence]. cbn. rewrite I1, I2. auto.
Qed.
Lemma gather_length v bins : length (gather v bins) = length bins.
Proof. apply map_length. Qed.

Lemma vadd_length (x y : list R) : length x = length y -> length (vadd x y) = length x.
Proof. revert y. induction x as [|a x IH]; intros [|b y] L; cbn in *; try discriminate; auto. Qed.
Lemma vsub_length (x y : list R) : length x = length y -> length (vsub x y) = length x.
Proof. revert y. induction x as [|a x IH]; intros [|b y] L; cbn in *; try discriminate; auto. Qed.

Definition rfm (_ : nat) (a b : list R) : Prop := b = neg a.

Lemma rgl_mirror : forall hs i, (forall j g, nth_error hs j = Some g -> nth_error gs (i + j) = Some g) ->
  RGL (fun i (_ : nat) p => map (estimate_value bad) (group_estimates gm bppf erfinv k (bind_groups D 0 gs) (map x_y D) (map x_w D) i p))
      (fun i (_ : nat) p => map (estimate_value bad) (group_estimates gm bppf erfinv k (bind_groups D 0 gs) (map x_y D') (map x_w D') i p))
      (fun i (_ : nat) p => group_smoother gm bppf erfinv bad k gs (bind_groups D 0 gs) (map x_y D) (map x_w D) i p)
      (fun i (_ : nat) p => group_smoother gm bppf erfinv bad k gs (bind_groups D 0 gs) (map x_y D') (map x_w D') i p)
      (kind_calibration k (bind_groups D 0 gs) (map x_w D)) (kind_calibration k (bind_groups D 0 gs) (map x_w D'))
      rate rate rpm rfm i (bind_groups D i hs) (bind_groups D i hs).
Proof.
  induction hs as [|g hs IH]; intros i IN; cbn [bind_groups]; constructor.
  2:{ apply IH. intros j h J. replace (S i + j)%nat with (i + S j)%nat by lia. apply IN. auto. }
  assert (LX : length (f_lex (bind_group D i g)) = n) by (rewrite (f_lex_map (bind_group D i g) D i eq_refl), map_length; auto).
  constructor; auto.
  - unfold rfm. apply neg_zeros.
  - intros p q v u [P L] ->. unfold rpm in *. change (f_ext _) with false; cbn [add_preds p_factors]. rewrite P, neg_gather, neg_vadd. split; auto.
    rewrite vadd_length; [auto|rewrite gather_length; congruence].
  - intros p q v u [P L] ->. unfold rpm in *. change (f_ext _) with false; cbn [sub_preds p_factors]. rewrite P, neg_gather, neg_vsub. split; auto.
    rewrite vsub_length; [auto|rewrite gather_length; congruence].
  - intros s t it p q Sr P. unfold new_factors. destruct (estimates_mirror i p q P) as [E FN].
    pose proof (values_mirror _ FN) as [V U]. cbv zeta. cbn [fst snd]. rewrite E, V, <- (rs_zero _ _ _ _ Sr), ws_mirror.
    split; [reflexivity|]. unfold rfm. rewrite <- neg_calibration. f_equal. rewrite map_app. cbn [map]. f_equal.
    + rewrite (map_map _ Ropp (seq _ _)). apply map_ext. intro b. destruct (s_zero s); [lra|].
      rewrite neg_firstn. unfold group_smoother. pose proof (IN 0%nat g eq_refl) as G. rewrite Nat.add_0_r in G. rewrite G, (bind_nth gs 0 i g G).
      rewrite ws_mirror in E. rewrite E, U. rewrite (SM g (nth_error_In _ _ G)).
      match goal with |- context [option_map Ropp ?o] => destruct o end; cbn; lra.
    + f_equal. destruct (f_mnl (bind_group D i g)); [lra|]. rewrite neg_nth. lra.
Qed.

Lemma start_mirror scale offset (X : list sample) :
  prior_predictions (- scale) (- offset) (linked_column k prior_column (map (mirror_row k) X)) (length (map (mirror_row k) X)) =
  neg (prior_predictions scale offset (linked_column k prior_column X) (length X)).
Proof.
  unfold prior_predictions, linked_column. destruct prior_column.
  - unfold linked_prior. rewrite !map_map. apply map_ext. intro s. cbn [mirror_row x_prior]. rewrite LINK.
    destruct (link_option (kind_link k) (x_prior s)); cbn; lra.
  - rewrite map_length. generalize (length X). induction n0; cbn; auto. f_equal; auto.
Qed.
Lemma start_length scale offset (X : list sample) :
  length (prior_predictions scale offset (linked_column k prior_column X) (length X)) = length X.
Proof.
  unfold prior_predictions, linked_column. destruct prior_column.
  - unfold linked_prior. rewrite !map_length. auto.
  - apply repeat_length.
Qed.

Lemma train_mirror fuel scale offset :
  ROO rpm rfm
    (train gm bppf erfinv bad k prior_column gs cfg rate fuel D scale offset)
    (train gm bppf erfinv bad k prior_column gs cfg rate fuel D' (- scale) (- offset)).
Proof.
  unfold train. cbv zeta. rewrite bind_mirror. apply sim_fit.
  - apply rgl_mirror. auto.
  - intros p q [P L]. rewrite P, ys_mirror, ws_mirror. symmetry. apply LOSS. auto.
  - intros i a b u v -> ->. unfold rfm. apply neg_vadd.
  - intros i a b u v -> ->. unfold rfm. apply neg_vsub.
  - intros i a b u v -> ->. rewrite neg_vsub, neg_abs. auto.
  - rewrite LOG. discriminate.
  - rewrite LOG. discriminate.
  - rewrite LOG. discriminate.
  - unfold rpm. cbn [p_factors]. split; [|apply start_length]. unfold D'. apply start_mirror.
Qed.

Lemma store_mirror f s t i : RS rfm i s t -> store f t = mirror_group (store f s).
Proof.
  intro H. pose proof (rs_agg _ _ _ _ H) as A. unfold RA in A. unfold store, mirror_group. cbv zeta.
  destruct (s_agg s) as [a|], (s_agg t) as [b|]; try contradiction; cbn [m_dim m_nbins m_ext m_values m_missing m_smoother].
  - rewrite A, neg_firstn, neg_nth. auto.
  - f_equal.
    + destruct (f_finite f); auto.
    + destruct (f_finite f); cbn; lra.
Qed.

Lemma fit_mirror scale : kind_offset k (- scale) (map x_prior D') (map x_w D') = - kind_offset k scale (map x_prior D) (map x_w D) ->
  forall fuel,
  fit_from gm bppf erfinv bad k prior_column gs cfg rate fuel (- scale) D' =
  mirror_result (fit_from gm bppf erfinv bad k prior_column gs cfg rate fuel scale D).
Proof.
  intros O' fuel. unfold fit_from. cbv zeta. rewrite O'.
  set (off := kind_offset k scale (map x_prior D) (map x_w D)). pose proof (train_mirror fuel scale off) as R.
  destruct (train _ _ _ _ _ _ _ _ _ _ D _ _) as [[a|e]|], (train _ _ _ _ _ _ _ _ _ _ D' _ _) as [[b|e']|]; cbn in R; try contradiction; auto.
  - cbn [mirror_result]. unfold mirror_model. cbn [o_scale o_offset o_groups o_iterations o_loss]. rewrite bind_mirror.
    rewrite (rt_iter _ _ _ _ R), (rt_loss _ _ _ _ R). f_equal. f_equal.
    assert (St : forall i sl tl, RSL rfm i sl tl -> forall fl, map2 store fl tl = map mirror_group (map2 store fl sl)).
    { intros i sl tl H. induction H; intros [|f fl]; cbn; auto. f_equal; auto. eapply store_mirror; eauto. }
    apply (St 0%nat _ _ (rt_feats _ _ _ _ R)).
  - rewrite R. auto.
Qed.
End Mirror.

(** ** Predictions *)
Lemma predict_group_mirror m rows : predict_factors (mirror_group m) rows = neg (predict_factors m rows).
Proof.
  unfold predict_factors. cbv zeta. rewrite map_map. apply map_ext. intro row. cbn [mirror_group m_dim m_nbins m_ext m_values m_missing m_smoother].
  destruct (row_finite_semi_positive row); auto. destruct (_ && m_smoother m); [|lra].
  assert (E : smoother_predict (mirror_group m) row = option_map Ropp (smoother_predict m row)).
  { unfold smoother_predict. cbn [mirror_group m_dim m_nbins m_ext m_values m_missing m_smoother]. destruct (Nat.ltb (m_dim m) 2).
    - unfold onedim_predict. rewrite ?map_length.
      match goal with |- context [if ?c then _ else _] => destruct c end; auto; cbn; rewrite neg_nth; auto.
    - unfold multidim_predict. destruct (floors_below row (m_nbins m)); auto. cbn. rewrite neg_nth. auto. }
  rewrite E. destruct (smoother_predict m row); cbn; lra.
Qed.
Lemma predict_from_mirror X : forall ms i p q, (forall m, In m ms -> m_ext m = false) -> p_factors q = neg (p_factors p) ->
  p_factors (predict_from i (map mirror_group ms) q X) = neg (p_factors (predict_from i ms p X)).
Proof.
  induction ms as [|m ms IH]; intros i p q H P; cbn; auto. apply IH; [intros; apply H; right; auto|].
  rewrite (H m (or_introl eq_refl)). cbn [add_preds p_factors]. rewrite P, predict_group_mirror. apply neg_vadd.
Qed.

(** Estimators with a mirror. *)
Definition mirrored_kind (k : kind) : Prop := k = BinaryClassifier \/ k = LocationRegressor \/ exists a, k = GBSRegressor a.
Lemma link_mirrored k : mirrored_kind k -> forall v, link_option (kind_link k) (option_map (mirror_value k) v) = option_map Ropp (link_option (kind_link k) v).
Proof.
  intros [-> | [-> | [a ->]]] [v|]; auto. cbn [link_option option_map mirror_value kind_link]. apply link_mirror.
Qed.
Lemma unlink_mirrored k : mirrored_kind k -> forall v, kind_output k (- v) = mirror_value k (kind_output k v).
Proof. intros [-> | [-> | [a ->]]] v; auto. apply unlink_mirror. Qed.

Lemma predict_mirror k prior_column m X : mirrored_kind k -> (forall g, In g (o_groups m) -> m_ext g = false) ->
  whole_predict k prior_column (mirror_model m) (map (mirror_row k) X) = map (mirror_value k) (whole_predict k prior_column m X).
Proof.
  intros K H. unfold whole_predict, cb_predict, predict_extended. cbn [mirror_model o_scale o_offset o_groups].
  assert (B : map x_bins (map (mirror_row k) X) = map x_bins X) by (rewrite map_map; auto). rewrite B.
  match goal with |- map _ (p_factors (predict_from 0 _ ?q _)) = map _ (map _ (p_factors (predict_from 0 _ ?p _))) => set (q0 := q); set (p0 := p) end.
  assert (P : p_factors q0 = neg (p_factors p0)).
  { unfold q0, p0. cbn [p_factors]. pose proof (start_mirror k prior_column (link_mirrored k K) (o_scale m) (o_offset m) X) as S.
    rewrite !map_length in *. exact S. }
  rewrite (predict_from_mirror _ _ _ p0 q0 H P). rewrite !map_map. apply map_ext. intro v. apply unlink_mirrored. auto.
Qed.

(** ** The three estimators *)
Lemma whole_is_from gm bppf erfinv bad k prior gs cfg rate fuel D :
  whole_fit gm bppf erfinv bad k prior gs cfg rate fuel D =
  match kind_scale k (map x_y D) (map x_w D) with
  | None => NoBaseline
  | Some scale => fit_from gm bppf erfinv bad k prior gs cfg rate fuel scale D
  end.
Proof. reflexivity. Qed.

Lemma from_ext gm bppf erfinv bad k prior gs cfg rate fuel scale D m :
  fit_from gm bppf erfinv bad k prior gs cfg rate fuel scale D = Trained m -> forall g, In g (o_groups m) -> m_ext g = false.
Proof.
  unfold fit_from. cbv zeta.
  destruct (train _ _ _ _ _ _ _ _ _ _ _ _ _) as [[st|e]|]; try discriminate. intro E. inversion E; subst; clear E. cbn [o_groups].
  generalize (t_feats st). assert (X : forall hs i sl g, In g (map2 store (bind_groups D i hs) sl) -> m_ext g = false).
  { induction hs as [|h hs IH]; intros i [|s sl] g H; cbn in H; try contradiction. destruct H as [<-|H]; auto. eapply IH; eauto. }
  intros l g. apply X.
Qed.

Lemma finite_values_mirror k : forall prior w, finite_values (map (option_map (mirror_value k)) prior) w = map (mirror_value k) (finite_values prior w).
Proof. induction prior as [|[p|] prior IH]; intros [|x w]; cbn; auto. f_equal. auto. Qed.
Lemma finite_weights_mirror k : forall prior w, finite_weights (map (option_map (mirror_value k)) prior) w = finite_weights prior w.
Proof. induction prior as [|[p|] prior IH]; intros [|x w]; cbn; auto. f_equal. auto. Qed.
Lemma finite_lengths : forall prior w, length (finite_values prior w) = length (finite_weights prior w).
Proof. induction prior as [|[p|] prior IH]; intros [|x w]; cbn; auto. Qed.

Lemma mean_mirror k y w : mirrored_kind k -> length y = length w ->
  weighted_mean (map (mirror_value k) y) w = option_map (mirror_value k) (weighted_mean y w).
Proof.
  intros K L. destruct K as [-> | [-> | [a ->]]]; [|apply neg_weighted_mean..].
  unfold weighted_mean. destruct (Reqb (sumR w) 0) eqn:E; auto. apply Reqb_false_iff in E. cbn [option_map mirror_value]. f_equal.
  assert (S : sumR (map2 Rmult (map (mirror_value BinaryClassifier) y) w) = sumR w - sumR (map2 Rmult y w)).
  { clear E. revert w L. induction y as [|v y IH]; intros [|x w] L; cbn in L; try discriminate; cbn; [lra|].
    change (map (fun v0 => 1 - v0) y) with (map (mirror_value BinaryClassifier) y). rewrite IH by lia. cbn [mirror_value]. ring. }
  rewrite S. field. auto.
Qed.

Lemma offset_mirror k scale prior w : mirrored_kind k ->
  kind_offset k (- scale) (map (option_map (mirror_value k)) prior) w = - kind_offset k scale prior w.
Proof.
  intro K. assert (P : prior_offset (kind_link k) (- scale) (map (option_map (mirror_value k)) prior) w = - prior_offset (kind_link k) scale prior w).
  { unfold prior_offset. rewrite finite_values_mirror, finite_weights_mirror, (mean_mirror k _ _ K (finite_lengths prior w)), (link_mirrored k K).
    destruct (link_option _ _); cbn; lra. }
  destruct K as [-> | [-> | [a ->]]]; auto. cbn. lra.
Qed.

Definition usable (bppf : R -> R -> R -> R) (erfinv : R -> R) (k : kind) (D : list sample) : Prop :=
  match k with
  | BinaryClassifier => mirrored_beta bppf /\ odd_increasing erfinv
  | LocationRegressor => D <> [] /\ forall s, In s D -> 0 < x_w s
  | GBSRegressor a => -1 <= a /\ forall s, In s D -> 0 <= x_w s
  | _ => False
  end.

Lemma usable_mirrored bppf erfinv k D : usable bppf erfinv k D -> mirrored_kind k.
Proof. unfold mirrored_kind. destruct k; cbn; intro; try contradiction; eauto. Qed.

Lemma squared_map2 x : forall y, map2 (fun p v => (p - v) * (p - v)) (neg x) (neg y) = map2 (fun p v => (p - v) * (p - v)) x y.
Proof. induction x as [|a x IH]; intros [|b y]; cbn; auto. f_equal; [ring|apply IH]. Qed.

Theorem from_mirror gm bppf erfinv bad k prior gs cfg rate fuel D scale :
  usable bppf erfinv k D -> mirrored_targets k D -> c_log cfg = false -> (forall g, In g gs -> odd_smoother (g_smoother g)) ->
  fit_from gm bppf erfinv bad k prior gs cfg rate fuel (- scale) (map (mirror_row k) D) =
  mirror_result (fit_from gm bppf erfinv bad k prior gs cfg rate fuel scale D).
Proof.
  intros U Y LOG SM. pose proof (usable_mirrored _ _ _ _ U) as K.
  apply fit_mirror; auto.
  - intros lex m score L1 L2. destruct k; try contradiction; cbn [estimates mirror_value] in *.
    + apply classifier_mirror; [apply U|apply U|]. intros v V. apply in_map_iff in V. destruct V as [s [<- S]]. apply Y. auto.
    + split; [apply neg_location|]. destruct U as [N W]. apply location_finite.
      * destruct D; [congruence|discriminate].
      * rewrite map_length. auto.
      * intros x X. apply in_map_iff in X. destruct X as [s [<- S]]. auto.
    + split; [apply neg_gbs|]. destruct U as [N W]. apply gbs_finite; auto; rewrite ?map_length; auto.
      intros x X. apply in_map_iff in X. destruct X as [s [<- S]]. auto.
  - intros score L. destruct k; try contradiction; unfold kind_loss; cbn [kind_link mirror_value].
    + unfold squared_loss. f_equal. f_equal. f_equal. generalize (map x_y D). clear. induction score as [|a score IH]; intros [|v y]; cbn [map map2]; auto.
      f_equal; [|apply IH]. rewrite unlink_mirror. cbv [mirror_value]. match goal with |- context [unlink_func Logit ?z] => generalize (unlink_func Logit z) end. intro. ring.
    + unfold squared_loss. f_equal. f_equal. f_equal.
      rewrite !map_id. apply squared_map2.
    + unfold gbs_loss. cbv zeta. rewrite !map_id, map_map.
      assert (E : forall l, map (fun x => if Reqb (- x) 0 then 0 else 1) l = map (fun v => if Reqb v 0 then 0 else 1) l).
      { intro l. apply map_ext. intro x. destruct (Reqb x 0) eqn:A.
        - apply Reqb_iff in A. assert (B : Reqb (- x) 0 = true) by (apply Reqb_iff; lra). rewrite B. auto.
        - apply Reqb_false_iff in A. assert (B : Reqb (- x) 0 = false) by (apply Reqb_false_iff; lra). rewrite B. auto. }
      rewrite E. destruct (Reqb _ 0); auto. f_equal. f_equal. f_equal. generalize (map x_y D). clear. induction score as [|a score IH]; intros [|v y]; cbn [map map2]; auto.
      f_equal; [cbv [mirror_value pow]; ring|apply IH].
  - apply link_mirrored; auto.
  - rewrite map_map. cbn [mirror_row x_prior]. rewrite <- (map_map x_prior). rewrite map_map with (g := x_w). cbn [mirror_row x_w].
    apply offset_mirror. auto.
Qed.

Theorem from_mirror_predict gm bppf erfinv bad k prior gs cfg rate fuel D scale m m' X :
  usable bppf erfinv k D -> mirrored_targets k D -> c_log cfg = false -> (forall g, In g gs -> odd_smoother (g_smoother g)) ->
  fit_from gm bppf erfinv bad k prior gs cfg rate fuel scale D = Trained m ->
  fit_from gm bppf erfinv bad k prior gs cfg rate fuel (- scale) (map (mirror_row k) D) = Trained m' ->
  whole_predict k prior m' (map (mirror_row k) X) = map (mirror_value k) (whole_predict k prior m X).
Proof.
  intros U Y LOG SM E E'. pose proof (from_mirror gm bppf erfinv bad k prior gs cfg rate fuel D scale U Y LOG SM) as M.
  rewrite E, E' in M. cbn in M. inversion M; subst. apply predict_mirror.
  - eapply usable_mirrored; eauto.
  - eapply from_ext; eauto.
Qed.

Theorem gbs_mirror gm bppf erfinv bad a prior gs cfg rate fuel D :
  -1 <= a -> (forall s, In s D -> 0 <= x_w s) -> c_log cfg = false -> (forall g, In g gs -> odd_smoother (g_smoother g)) ->
  let k := GBSRegressor a in
  whole_fit gm bppf erfinv bad k prior gs cfg rate fuel (map (mirror_row k) D) =
    mirror_result (whole_fit gm bppf erfinv bad k prior gs cfg rate fuel D) /\
  forall m m' X, whole_fit gm bppf erfinv bad k prior gs cfg rate fuel D = Trained m ->
    whole_fit gm bppf erfinv bad k prior gs cfg rate fuel (map (mirror_row k) D) = Trained m' ->
    whole_predict k prior m' (map (mirror_row k) X) = map (mirror_value k) (whole_predict k prior m X).
Proof.
  intros A W LOG SM k.
  assert (M : whole_fit gm bppf erfinv bad k prior gs cfg rate fuel (map (mirror_row k) D) =
    mirror_result (whole_fit gm bppf erfinv bad k prior gs cfg rate fuel D)).
  { rewrite !whole_is_from.
    assert (E : kind_scale k (map x_y (map (mirror_row k) D)) (map x_w (map (mirror_row k) D)) = option_map Ropp (kind_scale k (map x_y D) (map x_w D))).
    { rewrite !map_map. cbn [mirror_row x_w x_y]. unfold k at 1 3, mirror_value. rewrite <- (map_map x_y Ropp). apply neg_weighted_mean. }
    rewrite E. destruct (kind_scale k (map x_y D) (map x_w D)) as [s|]; cbn [option_map]; [|reflexivity].
    apply from_mirror; auto; cbn; auto. }
  split; auto. intros m m' X E E'. rewrite E, E' in M. cbn in M. inversion M; subst. apply predict_mirror.
  - right. right. exists a. auto.
  - rewrite whole_is_from in E. destruct (kind_scale _ _ _); [|discriminate]. eapply from_ext; eauto.
Qed.

Theorem location_mirror gm bppf erfinv bad prior gs cfg rate fuel D scale :
  D <> [] -> (forall s, In s D -> 0 < x_w s) -> c_log cfg = false -> (forall g, In g gs -> odd_smoother (g_smoother g)) ->
  let k := LocationRegressor in
  fit_from gm bppf erfinv bad k prior gs cfg rate fuel (- scale) (map (mirror_row k) D) =
    mirror_result (fit_from gm bppf erfinv bad k prior gs cfg rate fuel scale D) /\
  forall m m' X, fit_from gm bppf erfinv bad k prior gs cfg rate fuel scale D = Trained m ->
    fit_from gm bppf erfinv bad k prior gs cfg rate fuel (- scale) (map (mirror_row k) D) = Trained m' ->
    whole_predict k prior m' (map (mirror_row k) X) = map (mirror_value k) (whole_predict k prior m X).
Proof.
  intros N W L SM k. split.
  - apply from_mirror; auto; [split; auto|exact I].
  - intros m m' X. apply from_mirror_predict; auto; [split; auto|exact I].
Qed.
Theorem class_mirror gm bppf erfinv bad prior gs cfg rate fuel D scale :
  mirrored_beta bppf -> odd_increasing erfinv -> mirrored_targets BinaryClassifier D -> c_log cfg = false ->
  (forall g, In g gs -> odd_smoother (g_smoother g)) ->
  let k := BinaryClassifier in
  fit_from gm bppf erfinv bad k prior gs cfg rate fuel (- scale) (map (mirror_row k) D) =
    mirror_result (fit_from gm bppf erfinv bad k prior gs cfg rate fuel scale D) /\
  forall m m' X, fit_from gm bppf erfinv bad k prior gs cfg rate fuel scale D = Trained m ->
    fit_from gm bppf erfinv bad k prior gs cfg rate fuel (- scale) (map (mirror_row k) D) = Trained m' ->
    whole_predict k prior m' (map (mirror_row k) X) = map (mirror_value k) (whole_predict k prior m X).
Proof.
  intros HB HE Y L SM k. split.
  - apply from_mirror; auto; split; auto.
  - intros m m' X. apply from_mirror_predict; auto; split; auto.
Qed.
