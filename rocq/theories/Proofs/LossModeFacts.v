(** Uncertainties and baseline of the loss-minimising modes. *)
From Coq Require Import List Bool Reals Lia Lra Psatz.
From Verif.Model Require Import Num LexBins Train Predict Link Estimators Quantile LossModes.
From Verif.Spec Require Import TrainSpec PredictSpec LinkSpec EstimatorSpec QuantileSpec.
From Verif.Proofs Require Import TrainFacts TrainExamples PredictFacts ImportanceFacts LinkFacts EstimatorFacts ClassifierFacts QuantileFacts GenericFacts.
Import ListNotations.
Local Open Scope R_scope.

Lemma products_ge0 w y : nonneg w -> nonneg y -> 0 <= sumR (map2 Rmult w y).
Proof. intros Hw Hy. apply sum_nonneg_pos; auto. Qed.

(** ** Gamma *)
Lemma gamma_square y w : nonneg w -> nonneg y ->
  let alpha := 2 + sumR (map2 Rmult w y) in
  0 < uncertainty_gamma y w /\ uncertainty_gamma y w ^ 2 = ln (1 + 1 / alpha).
Proof.
  intros Hw Hy alpha. pose proof (products_ge0 w y Hw Hy) as P. unfold uncertainty_gamma. cbv zeta.
  rewrite (Rplus_comm _ 2). fold alpha. assert (A : 2 <= alpha) by (unfold alpha; lra).
  assert (E : ln (1 + alpha) - ln alpha = ln (1 + 1 / alpha)).
  { replace (1 + alpha) with (alpha * (1 + 1 / alpha)) by (field; lra).
    assert (0 < 1 / alpha) by (apply Rdiv_lt_0_compat; lra). rewrite ln_mult by lra. ring. }
  assert (Q : 0 < ln (1 + 1 / alpha)).
  { rewrite <- ln_1. apply ln_increasing; [lra|]. assert (0 < 1 / alpha) by (apply Rdiv_lt_0_compat; lra). lra. }
  rewrite E. split; [apply sqrt_lt_R0; auto|]. rewrite <- Rsqr_pow2, Rsqr_sqrt by lra. reflexivity.
Qed.

Lemma map2_app {A B C} (f : A -> B -> C) a : forall b a' b', length a = length b ->
  map2 f (a ++ a') (b ++ b') = map2 f a b ++ map2 f a' b'.
Proof. induction a as [|x a IH]; intros [|v b] a' b' L; cbn in *; try discriminate; auto. f_equal. auto. Qed.

Lemma gamma_more_evidence y w y' w' : length y = length w -> nonneg w -> nonneg y -> nonneg w' -> nonneg y' ->
  uncertainty_gamma (y ++ y') (w ++ w') <= uncertainty_gamma y w.
Proof.
  intros L Hw Hy Hw' Hy'.
  assert (Hww : nonneg (w ++ w')) by (intros x Hx; apply in_app_iff in Hx; destruct Hx; auto).
  assert (Hyy : nonneg (y ++ y')) by (intros x Hx; apply in_app_iff in Hx; destruct Hx; auto).
  destruct (gamma_square y w Hw Hy) as [P Q]. destruct (gamma_square _ _ Hww Hyy) as [P' Q'].
  cbv zeta in Q, Q'. rewrite map2_app in Q' by auto. rewrite sumR_app in Q'.
  pose proof (products_ge0 w y Hw Hy). pose proof (products_ge0 w' y' Hw' Hy').
  assert (LE : uncertainty_gamma (y ++ y') (w ++ w') ^ 2 <= uncertainty_gamma y w ^ 2).
  { rewrite Q, Q'. assert (I : 1 / (2 + (sumR (map2 Rmult w y) + sumR (map2 Rmult w' y'))) <= 1 / (2 + sumR (map2 Rmult w y))).
    { unfold Rdiv. rewrite !Rmult_1_l. apply Rinv_le_contravar; lra. }
    assert (0 < 1 / (2 + (sumR (map2 Rmult w y) + sumR (map2 Rmult w' y')))) by (apply Rdiv_lt_0_compat; lra).
    destruct (Req_dec (1 / (2 + (sumR (map2 Rmult w y) + sumR (map2 Rmult w' y')))) (1 / (2 + sumR (map2 Rmult w y)))) as [->|N]; [lra|].
    left. apply ln_increasing; lra. }
  nra.
Qed.

Lemma gamma_is_poisson gm y w b :
  snd (calc_factors_and_uncertainties gm [sumR (map2 Rmult w y)] [b]) = [uncertainty_gamma y w].
Proof. reflexivity. Qed.

(** ** Gaussian *)
Lemma sum_divs l c : sumR (map (fun x => x / c) l) = sumR l / c.
Proof. induction l as [|a l IH]; cbn; [unfold Rdiv; lra|]. rewrite IH. unfold Rdiv. lra. Qed.
Lemma sum_sq_divs l c : sumR (map2 Rmult l (map (fun x => x / c) l)) = sumR (map (fun x => x ^ 2) l) / c.
Proof. induction l as [|a l IH]; cbn [map map2 sumR]; [unfold Rdiv; lra|]. rewrite IH. unfold Rdiv. ring. Qed.

Lemma gaussian_spec y w : y <> [] -> length w = length y -> nonneg w -> 0 < sumR w ->
  exists u v, uncertainty_gaussian y w = Some u /\ 0 < u /\ 0 < v /\
    u ^ 2 = (sumR (map (fun x => x ^ 2) w) / v + 1 / 100) / (sumR w / v + 1 / 100) ^ 2 /\
    let m := sumR (map2 Rmult y w) / sumR w in
    let rss := sumR (map2 (fun w v => w * (v - m) ^ 2) w y) in
    v = ((if Rle_dec (rss / sumR w) (1 / 1000000000) then 1 else rss / sumR w) + rss) / (1 + sumR w).
Proof.
  intros N L Hw S. destruct y as [|y0 y']; [congruence|]. set (y := y0 :: y') in *.
  set (m := sumR (map2 Rmult y w) / sumR w). set (rss := sumR (map2 (fun w v => w * (v - m) ^ 2) w y)).
  set (v := ((if Rle_dec (rss / sumR w) (1 / 1000000000) then 1 else rss / sumR w) + rss) / (1 + sumR w)).
  assert (R0 : 0 <= rss).
  { unfold rss. generalize m. generalize y. clear -Hw. intros yy mm. revert yy. induction w as [|a w IH]; intros [|b y]; cbn [map2 sumR]; try lra.
    pose proof (Hw a (or_introl eq_refl)). pose proof (pow2_ge_0 (b - mm)).
    pose proof (IH (fun x Hx => Hw x (or_intror Hx)) y). nra. }
  assert (V0 : 0 < v).
  { unfold v. apply Rdiv_lt_0_compat; [|lra]. destruct (Rle_dec _ _) as [|Z]; [lra|].
    apply Rnot_le_lt in Z. lra. }
  assert (E : uncertainty_gaussian y w = Some (sqrt ((sumR (map (fun x => x ^ 2) w) / v + 1 / 100) / (sumR w / v + 1 / 100) ^ 2))).
  { change (uncertainty_gaussian y w) with (gaussian_of_rows y w). unfold gaussian_of_rows.
    rewrite (proj2 (Reqb_false_iff (sumR w) 0)) by lra. cbv zeta. fold m. fold rss.
    assert (B : (if Rleb (rss / sumR w) (1 / 1000000000) then 1 else rss / sumR w) =
                (if Rle_dec (rss / sumR w) (1 / 1000000000) then 1 else rss / sumR w)).
    { destruct (Rle_dec _ _) as [Z|Z]; [rewrite (proj2 (Rleb_iff _ _) Z); auto|].
      apply Rnot_le_lt in Z. rewrite (proj2 (Rleb_false _ _)) by auto. reflexivity. }
    rewrite B. unfold v. generalize (if Rle_dec (rss / sumR w) (1 / 1000000000) then 1 else rss / sumR w) as vp. intro vp.
    set (v' := (vp + rss) / (1 + sumR w)).
    assert (EV : (1 / 2 * 1 * vp + 1 / 2 * rss) / (1 / 2 * 1 + 1 / 2 * sumR w) = v') by (unfold v'; field; lra).
    rewrite EV, sum_divs, sum_sq_divs. reflexivity. }
  assert (SQ : 0 <= sumR (map (fun x => x ^ 2) w)).
  { apply sumR_nonneg. intros x _. apply pow2_ge_0. }
  assert (Q1 : 0 <= sumR (map (fun x => x ^ 2) w) / v) by (apply Rmult_le_pos; [auto|left; apply Rinv_0_lt_compat; auto]).
  assert (Q2 : 0 < sumR w / v) by (apply Rdiv_lt_0_compat; auto).
  assert (Q3 : 0 < (sumR (map (fun x => x ^ 2) w) / v + 1 / 100) / (sumR w / v + 1 / 100) ^ 2).
  { apply Rdiv_lt_0_compat; [lra|]. apply pow_lt. lra. }
  eexists. exists v. split; [exact E|]. split; [apply sqrt_lt_R0; auto|]. split; auto. split; [|reflexivity].
  rewrite <- Rsqr_pow2, Rsqr_sqrt by lra. reflexivity.
Qed.

(** Unit weights: [1 / (n / v + 1 / 100)]. *)
Lemma gaussian_unit y : y <> [] ->
  exists u v, uncertainty_gaussian y (map (fun _ => 1) y) = Some u /\ 0 < u < 10 /\ 0 < v /\ u ^ 2 = 1 / (INR (length y) / v + 1 / 100).
Proof.
  intro N. set (w := map (fun _ => 1) y).
  assert (S : sumR w = INR (length y)).
  { unfold w. clear. induction y as [|a y IH]; [reflexivity|]. cbn [map sumR]. cbn [length]. rewrite IH, S_INR. lra. }
  assert (S2 : sumR (map (fun x => x ^ 2) w) = INR (length y)).
  { rewrite <- S. unfold w. clear. induction y as [|a y IH]; [reflexivity|]. cbn [map sumR]. rewrite IH. ring. }
  assert (P : 0 < INR (length y)). { apply lt_0_INR. destruct y; [congruence|cbn; lia]. }
  destruct (gaussian_spec y w) as (u & v & E & U & V & Q & _); auto.
  - unfold w. apply map_length.
  - unfold w. intros x Hx. apply in_map_iff in Hx. destruct Hx as (z & <- & _). lra.
  - rewrite S. auto.
  - exists u, v. rewrite S, S2 in Q.
    assert (D : 0 < INR (length y) / v) by (apply Rdiv_lt_0_compat; auto).
    assert (Q' : u ^ 2 = 1 / (INR (length y) / v + 1 / 100)) by (rewrite Q; field; split; lra).
    repeat split; auto.
    assert (B : u ^ 2 < 10 ^ 2).
    { rewrite Q'. apply Rmult_lt_reg_r with (INR (length y) / v + 1 / 100); [lra|].
      unfold Rdiv at 1. rewrite Rmult_assoc, Rinv_l by lra. lra. }
    nra.
Qed.

Lemma gaussian_empty w : uncertainty_gaussian [] w = Some 10.
Proof.
  cbn [uncertainty_gaussian]. f_equal. unfold gaussian_w0.
  replace (1 / 100 / (1 / 100) ^ 2) with (10 * 10) by field. apply sqrt_square. lra.
Qed.

Lemma gaussian_weightless y w : y <> [] -> sumR w = 0 -> uncertainty_gaussian y w = None.
Proof. intros N S. destruct y; [congruence|]. cbn [uncertainty_gaussian]. unfold gaussian_of_rows. rewrite (proj2 (Reqb_iff _ _) S). reflexivity. Qed.

(** ** Beta *)
Lemma beta_uncertainty ppf erfinv :
  (forall a b q, 0 < a -> 0 < b -> 0 < q < 1 -> 0 < ppf a b q < 1) ->
  (forall a b q q', 0 < a -> 0 < b -> 0 < q -> q < q' -> q' < 1 -> ppf a b q < ppf a b q') ->
  (forall t t', -1 < t -> t < t' -> t' < 1 -> erfinv t < erfinv t') ->
  forall y w, nonneg w -> (forall x, In x y -> x = 0 \/ x = 1) ->
  exists u mu, uncertainty_beta ppf erfinv y w = Some u /\ 0 < u /\
    classifier_bin ppf erfinv (sumR (map2 Rmult w y)) (sumR (map2 (fun w v => w * (1 - v)) w y)) = Some (mu, u).
Proof.
  intros H1 H2 H3 y w Hw Hy.
  assert (A : 0 <= sumR (map2 Rmult w y)).
  { apply products_ge0; auto. intros x Hx. destruct (Hy x Hx); lra. }
  assert (B : 0 <= sumR (map2 (fun w v => w * (1 - v)) w y)).
  { revert y Hy A. induction w as [|a w IH]; intros [|b y] Hy A; cbn [map2 sumR]; try lra.
    pose proof (Hw a (or_introl eq_refl)).
    assert (0 <= sumR (map2 (fun w v => w * (1 - v)) w y)).
    { apply IH; [intros x Hx; apply Hw; right; auto|intros; apply Hy; right; auto|].
      apply products_ge0; [intros x Hx; apply Hw; right; auto|]. intros x Hx. destruct (Hy x (or_intror Hx)); lra. }
    destruct (Hy b (or_introl eq_refl)) as [->| ->]; lra. }
  set (al := sumR (map2 Rmult w y)) in *. set (be := sumR (map2 (fun w v => w * (1 - v)) w y)) in *.
  assert (CB : classifier_bin ppf erfinv al be =
    let '(p1, p2) := percentiles (al + beta_prior) (be + beta_prior) in
    gaussian_matching erfinv (ppf (al + beta_prior) (be + beta_prior)) p1 p2).
  { unfold classifier_bin, beta_posterior. rewrite (proj2 (Rltb_false al 0)), (proj2 (Rltb_false be 0)) by lra. reflexivity. }
  unfold uncertainty_beta. fold al be. rewrite CB. unfold percentiles.
  assert (PB : 0 < beta_prior) by (unfold beta_prior; lra).
  set (a := al + beta_prior) in *. set (b := be + beta_prior) in *. assert (0 < a /\ 0 < b) as [Pa Pb] by (unfold a, b; lra).
  assert (F : 0 < a / (a + b) < 1).
  { split; [apply Rdiv_lt_0_compat; lra|]. apply Rmult_lt_reg_r with (a + b); [lra|]. unfold Rdiv. rewrite Rmult_assoc, Rinv_l; lra. }
  destruct (matching ppf erfinv H1 H2 H3 a b (3 / 4 - 4 / 10 * (a / (a + b) - 1 / 2)) (1 / 4 - 4 / 10 * (a / (a + b) - 1 / 2)))
    as (mu & sigma & E & S & _); try lra.
  exists sigma, mu. rewrite E. auto.
Qed.

(** ** Baseline of quantile regression *)
Lemma quantile_unique q rows v v' : weighted_rows rows -> is_quantile q rows v -> is_quantile q rows v' -> v = v'.
Proof.
  intros W H H'. apply Rle_antisym; eapply quantile_monotone; eauto; lra.
Qed.

Lemma quantile_baseline sort l q rows X offset : sorts sort -> weighted_rows rows -> 0 < q <= 1 -> NoDup (map fst rows) ->
  exists v, is_quantile q rows v /\
    (interior l v -> exists scale, quantile_global_scale sort l rows q = Some scale /\
       cb_predict (unlink_func l) scale offset [] None X = repeat v (List.length X)) /\
    (~ interior l v -> quantile_global_scale sort l rows q = None).
Proof.
  intros Hs Hw Hq Hn. destruct (continuous_distinct sort q rows) as (v & E & V); auto. exists v. split; auto.
  unfold quantile_global_scale. rewrite E. cbn [link_option]. split.
  - intro I. destruct (links_inverse l v I) as (s & L & U). exists s. split; auto.
    unfold cb_predict, predict_extended, prior_predictions. cbn [predict_from p_factors].
    rewrite map_repeat_eq, U. reflexivity.
  - intro I. destruct (link_func l v) eqn:F; auto. exfalso. apply I. apply link_finite_interior. eauto.
Qed.

Definition zq_rows : list qrow := [(0, 1); (1, 1); (2, 1)].
Lemma zero_quantile_no_baseline sort q rows : sorts sort -> weighted_rows rows -> 0 < q <= 1 -> NoDup (map fst rows) ->
  is_quantile q rows 0 -> quantile_global_scale sort Log rows q = None.
Proof.
  intros Hs Hw Hq Hn Z. destruct (quantile_baseline sort Log q rows [] 0) as (v & V & _ & N); auto.
  apply N. rewrite <- (quantile_unique q rows 0 v Hw Z V). intros (eps & P & H). specialize (H 0). rewrite Rminus_0_r, Rabs_R0 in H.
  specialize (H P). cbn in H. rewrite (proj2 (Rltb_false 0 0)) in H by lra. discriminate.
Qed.

Lemma ex_zero_quantile : weighted_rows zq_rows /\ NoDup (map fst zq_rows) /\ (forall r, In r zq_rows -> 0 <= fst r) /\
  is_quantile (1 / 5) zq_rows 0.
Proof.
  split; [|split; [|split]].
  - split; [intros r [<-|[<-|[<-|[]]]]; cbn; lra|unfold total_weight; cbn; lra].
  - cbn [map fst zq_rows]. constructor; [intros [H|[H|[]]]; lra|]. constructor; [intros [H|[]]; lra|]. constructor; [intros []|constructor].
  - intros r [<-|[<-|[<-|[]]]]; cbn; lra.
  - unfold is_quantile, total_weight, weight_upto, weight_below, zq_rows. cbn [map fst snd sumR].
    repeat match goal with |- context [Rle_dec ?a ?b] => destruct (Rle_dec a b) end;
    repeat match goal with |- context [Rlt_dec ?a ?b] => destruct (Rlt_dec a b) end; try lra.
    split; [left; auto|]. lra.
Qed.

Lemma ex_zero_baseline : forall sort, sorts sort -> quantile_global_scale sort Log zq_rows (1 / 5) = None.
Proof.
  intros sort Hs. destruct ex_zero_quantile as (W & N & _ & Q). apply zero_quantile_no_baseline; auto. lra.
Qed.

Lemma ex_loss_modes : nonneg [1; 2] /\ uncertainty_gaussian [3; 5] [0; 0] = None /\ uncertainty_gaussian [] [] = Some 10.
Proof.
  split; [intros x [<-|[<-|[]]]; lra|]. split; [|apply gaussian_empty]. apply gaussian_weightless; [discriminate|cbn; lra].
Qed.

Lemma ex_weightless : exists y w, nonneg w /\ length y = length w /\ uncertainty_gaussian y w = None.
Proof.
  exists [3; 5], [0; 0]. split; [intros x [<-|[<-|[]]]; lra|]. split; [reflexivity|]. apply ex_loss_modes.
Qed.
