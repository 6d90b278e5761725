(** Links, learning rates, baseline and classifier outputs. *)
From Coq Require Import List Bool Reals Lia Lra.
From Verif.Model Require Import Num LexBins Train Predict Link.
From Verif.Spec Require Import TrainSpec PredictSpec LinkSpec.
From Verif.Proofs Require Import TrainFacts TrainExamples PredictFacts ImportanceFacts.
Import ListNotations.
Local Open Scope R_scope.

Lemma Reqb_iff a b : Reqb a b = true <-> a = b.
Proof. unfold Reqb. destruct (Req_EM_T a b); intuition congruence. Qed.
Lemma Reqb_false_iff a b : Reqb a b = false <-> a <> b.
Proof. unfold Reqb. destruct (Req_EM_T a b); intuition congruence. Qed.

(** ** C27 *)
Lemma link_domain l m : (exists v, link_func l m = Some v) <->
  match l with Log => 0 < m | Logit => 0 < m < 1 | Identity => True end.
Proof.
  destruct l; cbn; split.
  - intros [v H]. destruct (Rltb 0 m) eqn:E; [apply Rltb_iff in E; auto|discriminate].
  - intro H. apply Rltb_iff in H. rewrite H. eauto.
  - intros [v H]. destruct (Rltb 0 m && Rltb m 1) eqn:E; [|discriminate].
    apply andb_true_iff in E. rewrite !Rltb_iff in E. exact E.
  - intros [H1 H2]. apply Rltb_iff in H1, H2. rewrite H1, H2. cbn. eauto.
  - auto.
  - eauto.
Qed.

Lemma interior_domain l m : interior l m <->
  match l with Log => 0 < m | Logit => 0 < m < 1 | Identity => True end.
Proof.
  destruct l; cbn; split.
  - intros (e & He & H). specialize (H m). rewrite Rminus_diag_eq, Rabs_R0 in H by reflexivity.
    specialize (H He). cbn in H. rewrite andb_true_r in H. apply Rltb_iff in H. exact H.
  - intro H. exists m. split; auto. intros x Hx. cbn. rewrite andb_true_r. apply Rltb_iff.
    unfold Rabs in Hx. destruct (Rcase_abs _); lra.
  - intros (e & He & H).
    pose proof (H (m - e / 2)) as H1. pose proof (H (m + e / 2)) as H2. cbn in H1, H2.
    rewrite andb_true_r, andb_true_iff, !Rleb_iff in H1, H2.
    assert (A1 : Rabs (m - e / 2 - m) < e) by (unfold Rabs; destruct (Rcase_abs _); lra).
    assert (A2 : Rabs (m + e / 2 - m) < e) by (unfold Rabs; destruct (Rcase_abs _); lra).
    specialize (H1 A1). specialize (H2 A2). lra.
  - intro H. exists (Rmin m (1 - m)). split; [apply Rmin_glb_lt; lra|]. intros x Hx. cbn.
    rewrite andb_true_r, andb_true_iff, !Rleb_iff.
    pose proof (Rmin_l m (1 - m)). pose proof (Rmin_r m (1 - m)).
    unfold Rabs in Hx. destruct (Rcase_abs _); lra.
  - auto.
  - intros _. exists 1. split; [lra|]. reflexivity.
Qed.

Lemma link_finite_interior l m : (exists v, link_func l m = Some v) <-> interior l m.
Proof. rewrite link_domain, interior_domain. reflexivity. Qed.

Lemma unlink_link l m v : link_func l m = Some v -> unlink_func l v = m.
Proof.
  intro H. assert (D := proj1 (link_domain l m) (ex_intro _ v H)).
  destruct l; cbn in *.
  - apply Rltb_iff in D. rewrite D in H. apply Rltb_iff in D. injection H as <-. apply exp_ln; auto.
  - destruct D as [D1 D2]. pose proof D1 as E1. pose proof D2 as E2. apply Rltb_iff in E1, E2.
    rewrite E1, E2 in H. cbn in H. injection H as <-.
    rewrite exp_Ropp, exp_ln by (apply Rdiv_lt_0_compat; lra). field. lra.
  - injection H as <-. reflexivity.
Qed.

Lemma unlink_range l v : match l with Log => 0 < unlink_func l v | Logit => 0 < unlink_func l v < 1 | Identity => True end.
Proof.
  destruct l; cbn; auto.
  - apply exp_pos.
  - pose proof (exp_pos (- v)). split.
    + apply Rdiv_lt_0_compat; lra.
    + apply (Rmult_lt_reg_r (1 + exp (- v))); [lra|]. unfold Rdiv. rewrite Rmult_assoc, Rinv_l by lra. lra.
Qed.

Lemma link_unlink l v : link_func l (unlink_func l v) = Some v.
Proof.
  pose proof (unlink_range l v) as D. destruct l; cbn [link_func].
  - apply Rltb_iff in D. rewrite D. cbn. rewrite ln_exp. reflexivity.
  - destruct D as [D1 D2]. apply Rltb_iff in D1, D2. rewrite D1, D2. cbn [andb unlink_func].
    f_equal. pose proof (exp_pos (- v)) as E.
    replace (1 / (1 + exp (- v)) / (1 - 1 / (1 + exp (- v)))) with (exp v).
    + apply ln_exp.
    + rewrite exp_Ropp in *. pose proof (exp_pos v) as Ev.
      assert (/ exp v <> 0) by lra. field. split; [lra|]. split; lra.
  - reflexivity.
Qed.

Lemma unlink_increasing l v v' : v < v' -> unlink_func l v < unlink_func l v'.
Proof.
  intro H. destruct l; cbn.
  - apply exp_increasing; auto.
  - pose proof (exp_pos (- v)). pose proof (exp_pos (- v')).
    assert (exp (- v') < exp (- v)) by (apply exp_increasing; lra).
    unfold Rdiv. rewrite !Rmult_1_l. apply Rinv_lt_contravar; [|lra]. apply Rmult_lt_0_compat; lra.
  - exact H.
Qed.

Lemma link_increasing l m m' v v' : link_func l m = Some v -> link_func l m' = Some v' -> (m < m' <-> v < v').
Proof.
  intros H H'. pose proof (unlink_link _ _ _ H) as E. pose proof (unlink_link _ _ _ H') as E'. split; intro L.
  - destruct (Rlt_le_dec v v') as [|K]; auto. exfalso. destruct (Rle_lt_or_eq_dec _ _ K) as [K'| ->].
    + pose proof (unlink_increasing l _ _ K'). lra.
    + lra.
  - pose proof (unlink_increasing l _ _ L). lra.
Qed.

Lemma links_inverse l m : interior l m -> exists v, link_func l m = Some v /\ unlink_func l v = m.
Proof.
  intro H. apply link_finite_interior in H. destruct H as [v H]. exists v. split; auto. eapply unlink_link; eauto.
Qed.

Lemma prediction_ranges l scale offset ms linked X p :
  In p (cb_predict (unlink_func l) scale offset ms linked X) ->
  match l with Log => 0 < p | Logit => 0 < p < 1 | Identity => True end.
Proof.
  intro H. unfold cb_predict in H. apply in_map_iff in H. destruct H as (v & <- & _). apply unlink_range.
Qed.

(** ** C28 *)
Lemma proba_rows scores j s : nth_error scores j = Some s ->
  exists p0 p1, nth_error (predict_proba scores) j = Some [p0; p1] /\
    0 <= p0 /\ 0 <= p1 /\ p0 + p1 = 1 /\ p1 = unlink_func Logit s /\
    (1 / 2 < p1 -> nth_error (predict_class scores) j = Some 1) /\
    (p1 <= 1 / 2 -> nth_error (predict_class scores) j = Some 0).
Proof.
  intro H. pose proof (unlink_range Logit s) as [R1 R2].
  exists (1 - unlink_func Logit s), (unlink_func Logit s).
  unfold predict_proba, predict_class. rewrite !nth_error_map, H. cbn [option_map].
  split; [reflexivity|]. split; [lra|]. split; [lra|]. split; [lra|]. split; [reflexivity|]. split; intro K.
  - apply Rltb_iff in K. rewrite K. reflexivity.
  - assert (E : Rltb (1 / 2) (unlink_func Logit s) = false) by (apply Rltb_false; lra). rewrite E. reflexivity.
Qed.

Lemma boost_weight_range y p : 0 <= p <= 1 ->
  0 < boost_weight y p < 1 /\
  (0 < p < 1 -> boost_weight y p = if Reqb y 0 then p else 1 - p).
Proof.
  intro H. unfold boost_weight, epsilon. cbv zeta.
  destruct (Reqb p 0) eqn:E0; [apply Reqb_iff in E0|apply Reqb_false_iff in E0].
  - replace (Reqb (1 / 1000000000000) 1) with false by (symmetry; apply Reqb_false_iff; lra).
    destruct (Reqb y 0); split; lra.
  - destruct (Reqb p 1) eqn:E1; [apply Reqb_iff in E1|apply Reqb_false_iff in E1];
      destruct (Reqb y 0); split; try lra; intro; reflexivity.
Qed.

(** ** C33 *)
Lemma linear_facts it mx : 0 < mx -> linear_learn_rate it mx = INR it / mx.
Proof. intro. unfold linear_learn_rate, Rdiv. rewrite Rmult_1_l. reflexivity. Qed.

Definition sat_ln : R := ln ((1 - 999999999 / 1000000000) / (1 + 999999999 / 1000000000)).
Lemma sat_neg : sat_ln < 0.
Proof. unfold sat_ln. rewrite <- ln_1. apply ln_increasing; lra. Qed.
Lemma logistic_value it mx : 0 < mx ->
  logistic_learn_rate it mx = 2 / (1 + exp (INR it / mx * sat_ln)) - 1.
Proof.
  intro H. unfold logistic_learn_rate. cbv zeta. fold sat_ln. pose proof sat_neg.
  replace (INR it / (mx / sat_ln)) with (INR it / mx * sat_ln) by (field; lra).
  pose proof (exp_pos (INR it / mx * sat_ln)). field. lra.
Qed.
Lemma logistic_mono x y : x <= y -> 2 / (1 + exp (x * sat_ln)) - 1 <= 2 / (1 + exp (y * sat_ln)) - 1.
Proof.
  intro H. pose proof sat_neg. pose proof (exp_pos (x * sat_ln)). pose proof (exp_pos (y * sat_ln)).
  assert (exp (y * sat_ln) <= exp (x * sat_ln)).
  { destruct H as [H| ->]; [|lra]. left. apply exp_increasing. apply (Rmult_lt_gt_compat_neg_l sat_ln) in H; lra. }
  assert (2 / (1 + exp (x * sat_ln)) <= 2 / (1 + exp (y * sat_ln))); [|lra].
  unfold Rdiv. apply Rmult_le_compat_l; [lra|]. apply Rinv_le_contravar; lra.
Qed.
Lemma logistic_pos x : 0 < x -> 0 < 2 / (1 + exp (x * sat_ln)) - 1 < 1.
Proof.
  intro H. pose proof sat_neg. pose proof (exp_pos (x * sat_ln)) as Ep.
  assert (exp (x * sat_ln) < 1).
  { rewrite <- exp_0. apply exp_increasing. apply (Rmult_lt_gt_compat_neg_l sat_ln) in H; lra. }
  assert (1 < 2 / (1 + exp (x * sat_ln)) < 2); [|lra]. split.
  - apply (Rmult_lt_reg_r (1 + exp (x * sat_ln))); [lra|]. unfold Rdiv. rewrite Rmult_assoc, Rinv_l by lra. lra.
  - apply (Rmult_lt_reg_r (1 + exp (x * sat_ln))); [lra|]. unfold Rdiv. rewrite Rmult_assoc, Rinv_l by lra. lra.
Qed.
Lemma logistic_end mx : 0 < mx -> 2 / (1 + exp (mx / mx * sat_ln)) - 1 = 999999999 / 1000000000.
Proof.
  intro H. replace (mx / mx) with 1 by (field; lra). rewrite Rmult_1_l. unfold sat_ln. rewrite exp_ln by lra. lra.
Qed.

Lemma ratio_le a b mx : (a <= b)%nat -> 0 < mx -> INR a / mx <= INR b / mx.
Proof. intros H Hm. apply le_INR in H. apply Rmult_le_compat_r; [left; apply Rinv_0_lt_compat; auto|auto]. Qed.

Lemma rate_monotone r mx it it' : offered_rate r -> (0 < mx)%nat -> (it <= it')%nat -> r it (INR mx) <= r it' (INR mx).
Proof.
  intros Hr Hm H. apply lt_0_INR in Hm. destruct Hr as [<-|[<-|[<-|[<-|[]]]]].
  - unfold constant_learn_rate_one. lra.
  - rewrite !linear_facts by auto. apply ratio_le; auto.
  - rewrite !logistic_value by auto. apply logistic_mono. apply ratio_le; auto.
  - unfold half_linear_learn_rate. rewrite !linear_facts by lra.
    apply Rle_min_compat_r. apply ratio_le; auto. lra.
Qed.

Lemma rate_range r mx it : offered_rate r -> (1 <= it <= mx)%nat -> 0 < r it (INR mx) <= 1.
Proof.
  intros Hr H. assert (Hm : 0 < INR mx) by (apply lt_0_INR; lia).
  assert (H0 : 0 < INR it) by (apply lt_0_INR; lia). assert (H1 : INR it <= INR mx) by (apply le_INR; lia).
  assert (P : 0 < INR it / INR mx) by (apply Rdiv_lt_0_compat; auto).
  destruct Hr as [<-|[<-|[<-|[<-|[]]]]].
  - unfold constant_learn_rate_one. lra.
  - rewrite linear_facts by auto. split; auto.
    apply (Rmult_le_reg_r (INR mx)); auto. unfold Rdiv. rewrite Rmult_assoc, Rinv_l by lra. lra.
  - rewrite logistic_value by auto. pose proof (logistic_pos _ P). lra.
  - unfold half_linear_learn_rate. rewrite linear_facts by lra. split; [|apply Rmin_r].
    apply Rmin_glb_lt; [|lra]. apply Rdiv_lt_0_compat; lra.
Qed.

Lemma rate_last r mx : offered_rate r -> (1 <= mx)%nat -> r <> logistic_learn_rate -> r mx (INR mx) = 1.
Proof.
  intros Hr H Hn. assert (Hm : 0 < INR mx) by (apply lt_0_INR; lia).
  destruct Hr as [<-|[<-|[<-|[<-|[]]]]].
  - reflexivity.
  - rewrite linear_facts by auto. field. lra.
  - congruence.
  - unfold half_linear_learn_rate. rewrite linear_facts by lra.
    replace (INR mx / (INR mx * (1 / 2))) with 2 by (field; lra). apply Rmin_right. lra.
Qed.
Lemma rate_last_logistic mx : (1 <= mx)%nat -> logistic_learn_rate mx (INR mx) = 1 - 1 / 1000000000.
Proof.
  intro H. assert (Hm : 0 < INR mx) by (apply lt_0_INR; lia). rewrite logistic_value, logistic_end by auto. lra.
Qed.
(** Half of the iterations already have the full rate. *)
Lemma half_linear_full mx it : (1 <= mx)%nat -> (mx <= 2 * it)%nat -> half_linear_learn_rate it (INR mx) = 1.
Proof.
  intros H Hi. assert (Hm : 0 < INR mx) by (apply lt_0_INR; lia).
  apply le_INR in Hi. rewrite mult_INR in Hi. cbn [INR] in Hi.
  unfold half_linear_learn_rate. rewrite linear_facts by lra. apply Rmin_right.
  apply (Rmult_le_reg_r (INR mx * (1 / 2))); [lra|].
  replace (INR it / (INR mx * (1 / 2)) * (INR mx * (1 / 2))) with (INR it) by (field; lra). lra.
Qed.

(** ** Baseline *)
Lemma weighted_mean_spec y w : sumR w <> 0 ->
  exists m, weighted_mean y w = Some m /\ is_weighted_mean y w m.
Proof.
  intro H. exists (sumR (map2 Rmult y w) / sumR w). unfold weighted_mean.
  replace (Reqb (sumR w) 0) with false by (symmetry; apply Reqb_false_iff; auto).
  split; auto. unfold is_weighted_mean. field. auto.
Qed.

Lemma weighted_mean_unique y w m m' : sumR w <> 0 -> is_weighted_mean y w m -> is_weighted_mean y w m' -> m = m'.
Proof. unfold is_weighted_mean. intros H H1 H2. apply (Rmult_eq_reg_r (sumR w)); auto. lra. Qed.
Lemma weighted_mean_some y w m : weighted_mean y w = Some m <-> sumR w <> 0 /\ is_weighted_mean y w m.
Proof.
  split.
  - intro H. unfold weighted_mean in H. destruct (Reqb (sumR w) 0) eqn:E; [discriminate|].
    apply Reqb_false_iff in E. split; auto. injection H as <-. unfold is_weighted_mean. field. auto.
  - intros [H1 H2]. destruct (weighted_mean_spec y w H1) as (m' & E & H3). rewrite E. f_equal.
    eapply weighted_mean_unique; eauto.
Qed.

Lemma finite_usable prior : forall w, List.length w = List.length prior ->
  finite_values prior w = map fst (usable prior w) /\ finite_weights prior w = map snd (usable prior w).
Proof.
  induction prior as [|p prior IH]; intros [|x w] H; cbn in *; try discriminate; auto.
  injection H as H. destruct (IH w H) as [E1 E2]. destruct p as [p|]; cbn; rewrite ?E1, ?E2; auto.
Qed.

Lemma map_repeat_eq {A B} (f : A -> B) x n : map f (repeat x n) = repeat (f x) n.
Proof. induction n; cbn; congruence. Qed.

Lemma baseline_no_prior l y w m scale offset X :
  sumR w <> 0 -> is_weighted_mean y w m -> global_scale l y w = Some scale ->
  cb_predict (unlink_func l) scale offset [] None X = repeat (m + 1 / 1000) (List.length X).
Proof.
  intros Hw Hm Hs. unfold global_scale in Hs.
  rewrite (proj2 (weighted_mean_some y w m) (conj Hw Hm)) in Hs. apply unlink_link in Hs.
  unfold cb_predict, predict_extended, prior_predictions. cbn [predict_from p_factors].
  rewrite map_repeat_eq, Hs. reflexivity.
Qed.

Lemma baseline_with_prior l y w m scale prior X pm :
  sumR w <> 0 -> is_weighted_mean y w m -> global_scale l y w = Some scale ->
  List.length w = List.length prior ->
  sumR (map snd (usable prior w)) <> 0 ->
  is_weighted_mean (map fst (usable prior w)) (map snd (usable prior w)) pm -> interior l pm ->
  forall column j p, List.length X = List.length column -> nth_error column j = Some p ->
  exists q, nth_error (cb_predict (unlink_func l) scale (prior_offset l scale prior w) []
              (Some (linked_prior l column)) X) j = Some q /\
    ((forall x, p = Some x -> ~ interior l x) -> q = m + 1 / 1000) /\
    (forall x, p = Some x -> interior l x -> exists lq lb lx lpm,
       link_func l q = Some lq /\ link_func l (m + 1 / 1000) = Some lb /\
       link_func l x = Some lx /\ link_func l pm = Some lpm /\ lq - lb = lx - lpm).
Proof.
  intros Hw Hm Hs Hl Hu Hpm Hin column j p HX Hp.
  pose proof Hs as Hs'. unfold global_scale in Hs'.
  rewrite (proj2 (weighted_mean_some y w m) (conj Hw Hm)) in Hs'. pose proof (unlink_link _ _ _ Hs') as Eb.
  destruct (finite_usable prior w Hl) as [E1 E2].
  destruct (links_inverse l pm Hin) as (lpm & Hlpm & _).
  assert (Eo : prior_offset l scale prior w = scale - lpm).
  { unfold prior_offset. rewrite E1, E2, (proj2 (weighted_mean_some _ _ pm) (conj Hu Hpm)). cbn. rewrite Hlpm. reflexivity. }
  rewrite Eo. unfold cb_predict, predict_extended, prior_predictions. cbn [predict_from p_factors].
  unfold linked_prior. rewrite !nth_error_map, Hp. cbn [option_map].
  eexists. split; [reflexivity|]. split.
  - intro Hno. destruct p as [x|]; cbn [link_option].
    + destruct (link_func l x) as [v|] eqn:Ex; [|exact Eb].
      exfalso. apply (Hno x eq_refl). apply link_finite_interior. eauto.
    + exact Eb.
  - intros x -> Hx. cbn [link_option]. destruct (links_inverse l x Hx) as (lx & Hlx & _). rewrite Hlx.
    exists (lx + (scale - lpm)), scale, lx, lpm. rewrite link_unlink. repeat split; auto. lra.
Qed.

Lemma sum_nonneg_pos y w : (forall x, In x y -> 0 <= x) -> (forall x, In x w -> 0 <= x) -> 0 <= sumR (map2 Rmult y w).
Proof.
  revert w. induction y as [|a y IH]; intros [|b w] Hy Hw; cbn; try lra.
  pose proof (Hy a (or_introl eq_refl)). pose proof (Hw b (or_introl eq_refl)).
  pose proof (IH w (fun x H => Hy x (or_intror H)) (fun x H => Hw x (or_intror H))).
  assert (0 <= a * b) by (apply Rmult_le_pos; auto). lra.
Qed.

(** The baseline of a multiplicative or additive model exists for every accepted
    target; that of a classifier if the mean target is below 0.999. *)
Lemma baseline_exists y w m : (forall x, In x w -> 0 <= x) -> 0 < sumR w -> is_weighted_mean y w m ->
  (check_y_regressor y = true -> exists s, global_scale Log y w = Some s) /\
  (exists s, global_scale Identity y w = Some s) /\
  (check_y_classifier y = true -> (exists s, global_scale Logit y w = Some s) <-> m < 999 / 1000).
Proof.
  intros Hw Hs Hm. assert (Hn : sumR w <> 0) by lra.
  assert (E : weighted_mean y w = Some m) by (apply weighted_mean_some; auto).
  assert (P : (forall x, In x y -> 0 <= x) -> 0 <= m).
  { intro Hy. pose proof (sum_nonneg_pos y w Hy Hw) as S. unfold is_weighted_mean in Hm. rewrite <- Hm in S.
    destruct (Rle_lt_dec 0 m) as [|K]; auto. exfalso. pose proof (Rmult_lt_compat_r (sumR w) _ _ Hs K). lra. }
  unfold global_scale. rewrite E. split; [|split].
  - intro Hy. apply link_domain. assert (0 <= m); [|lra]. apply P. intros x Hx.
    unfold check_y_regressor in Hy. rewrite forallb_forall in Hy. apply Rleb_iff, Hy; auto.
  - apply link_domain. exact I.
  - intro Hy. assert (0 <= m).
    { apply P. intros x Hx. unfold check_y_classifier in Hy. rewrite forallb_forall in Hy. specialize (Hy x Hx).
      apply orb_true_iff in Hy. rewrite !Reqb_iff in Hy. lra. }
    rewrite link_domain. lra.
Qed.

(** Prior predictions whose mean has no finite link. *)
Lemma unusable_prior_mean : exists y w m scale prior pm X,
  0 < sumR w /\ is_weighted_mean y w m /\ global_scale Log y w = Some scale /\
  is_weighted_mean (map fst (usable prior w)) (map snd (usable prior w)) pm /\ link_func Log pm = None /\
  m + 1 / 1000 = 2 /\
  cb_predict (unlink_func Log) scale (prior_offset Log scale prior w) [] (Some (linked_prior Log prior)) X = [2; 6].
Proof.
  exists [1999/1000; 1999/1000], [1; 1], (1999/1000), (ln 2), [Some (-5); Some 3], (-1), [(fun _ => []); (fun _ => [])].
  assert (L2 : Rltb 0 2 = true) by (apply Rltb_iff; lra).
  assert (L3 : Rltb 0 3 = true) by (apply Rltb_iff; lra).
  assert (L5 : Rltb 0 (-5) = false) by (apply Rltb_false; lra).
  assert (E : Reqb (1 + (1 + 0)) 0 = false) by (apply Reqb_false_iff; lra).
  split; [cbn; lra|]. split; [unfold is_weighted_mean; cbn; lra|]. split.
  { unfold global_scale, weighted_mean. cbn [sumR map2]. rewrite E. cbn.
    replace ((1999 / 1000 * 1 + (1999 / 1000 * 1 + 0)) / (1 + (1 + 0)) + 1 / 1000) with 2 by lra. rewrite L2. reflexivity. }
  split; [unfold is_weighted_mean; cbn; lra|].
  assert (M : Rltb 0 (-1) = false) by (apply Rltb_false; lra).
  split; [cbn; rewrite M; reflexivity|]. split; [lra|].
  assert (O : prior_offset Log (ln 2) [Some (-5); Some 3] [1; 1] = ln 2).
  { unfold prior_offset, weighted_mean. cbn [finite_values finite_weights sumR map2]. rewrite E. cbn.
    replace ((-5 * 1 + (3 * 1 + 0)) / (1 + (1 + 0))) with (-1) by lra. rewrite M. reflexivity. }
  rewrite O. unfold cb_predict, predict_extended, prior_predictions, linked_prior. cbn. rewrite L5, L3.
  rewrite exp_plus, !exp_ln by lra. repeat f_equal; lra.
Qed.

(** A classifier trained on ones only has no baseline. *)
Lemma all_ones_no_baseline : exists y w,
  check_y_classifier y = true /\ 0 < sumR w /\ global_scale Logit y w = None.
Proof.
  exists [1], [1]. split; [|split; [cbn; lra|]].
  - cbn. rewrite orb_true_iff || idtac. replace (Reqb 1 1) with true by (symmetry; apply Reqb_iff; reflexivity).
    rewrite orb_true_r. reflexivity.
  - unfold global_scale, weighted_mean. cbn [sumR map2].
    replace (Reqb (1 + 0) 0) with false by (symmetry; apply Reqb_false_iff; lra).
    cbn [link_func]. replace (Rltb ((1 * 1 + 0) / (1 + 0) + 1 / 1000) 1) with false by (symmetry; apply Rltb_false; lra).
    rewrite andb_false_r. reflexivity.
Qed.

Lemma ex_c52 : exists scale, global_scale Log [1; 2] [1; 3] = Some scale /\ is_weighted_mean [1; 2] [1; 3] (7/4) /\
  usable [Some 1; None] [1; 3] = [(1, 1)] /\ interior Log 1.
Proof.
  assert (H : exists s, global_scale Log [1; 2] [1; 3] = Some s).
  { apply (baseline_exists _ _ (7/4)); cbn; try lra.
    - intros x [<-|[<-|[]]]; lra.
    - unfold is_weighted_mean. cbn. lra.
    - rewrite !(proj2 (Rleb_iff 0 _)) by lra. reflexivity. }
  destruct H as [s H]. exists s. split; auto. split; [unfold is_weighted_mean; cbn; lra|]. split; [reflexivity|].
  apply interior_domain. lra.
Qed.

Lemma ex_c27 : interior Logit (1/2) /\ ~ interior Logit 1 /\ is_in_range Logit [1] = true.
Proof.
  split; [apply interior_domain; lra|]. split; [intro H; apply interior_domain in H; lra|].
  cbn. rewrite !(proj2 (Rleb_iff _ _)) by lra. reflexivity.
Qed.
Lemma ex_c28 : nth_error [0; 1] 1 = Some 1 /\ nth_error (predict_class [0; 1]) 1 = Some 1 /\
  nth_error (predict_class [0; 1]) 0 = Some 0.
Proof.
  assert (E0 : unlink_func Logit 0 = 1 / 2) by (cbn; rewrite Ropp_0, exp_0; lra).
  split; [reflexivity|]. split.
  - destruct (proba_rows [0; 1] 1 1 eq_refl) as (p0 & p1 & _ & _ & _ & _ & E & H & _). apply H. rewrite E, <- E0.
    apply unlink_increasing. lra.
  - destruct (proba_rows [0; 1] 0 0 eq_refl) as (p0 & p1 & _ & _ & _ & _ & E & _ & H). apply H. rewrite E, E0. lra.
Qed.
Lemma loop_rates r mx it : offered_rate r -> (it < mx)%nat ->
  0 < learning_rate r mx it <= 1 /\ (r <> logistic_learn_rate -> learning_rate r mx (mx - 1) = 1).
Proof.
  intros Hr Hi. unfold learning_rate. split.
  - apply rate_range; auto. lia.
  - intro Hn. replace (mx - 1 + 1)%nat with mx by lia. apply rate_last; auto. lia.
Qed.
Lemma ex_c33 : offered_rate linear_learn_rate /\ linear_learn_rate 1 (INR 4) = 1 / 4 /\
  half_linear_learn_rate 1 (INR 4) = 1 / 2.
Proof.
  unfold offered_rate, half_linear_learn_rate, linear_learn_rate. cbn [In INR].
  split; [auto|]. split; [lra|]. rewrite Rmin_left; lra.
Qed.
