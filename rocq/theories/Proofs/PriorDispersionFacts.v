(** Baseline of the dispersion estimator; quantile regression and copies of rows. *)
From Coq Require Import ZArith QArith List Bool Reals Lra Lia Permutation Sorted.
From Verif.Model Require Import Num LexBins Train Predict Link Estimators WholeFit Quantile LossModes Dispersion BinFit BinSmoothers.
From Verif.Spec Require Import PredictSpec DataSpec QuantileSpec BinFitSpec.
From Verif.Proofs Require Import TrainFacts LinkFacts TrainExamples NeutralFacts RangeFacts WholeExamples BinFitFacts.
Import ListNotations.
Local Open Scope R_scope.

Lemma odds_unlink s : odds (unlink_func Logit s) = exp s.
Proof.
  unfold odds. cbn. pose proof (exp_pos (- s)). replace (exp s) with (/ exp (- s)) by (rewrite <- exp_Ropp; f_equal; lra). field. split; lra.
Qed.
Lemma odds_link c x : link_func Logit c = Some x -> exp x = odds c.
Proof.
  cbn. destruct (Rltb 0 c) eqn:A; [|discriminate]. destruct (Rltb c 1) eqn:B; [|discriminate]. apply Rltb_iff in A. apply Rltb_iff in B.
  cbn. intro E. injection E as <-. apply exp_ln. unfold odds. apply Rdiv_lt_0_compat; lra.
Qed.

Lemma dispersion_scale lgamma gamma bayes n prior gs cfg rate fuel D t :
  dispersion_fit lgamma gamma bayes n prior gs cfg rate fuel D = Trained t -> o_scale t = 0 /\ o_offset t = 0.
Proof.
  unfold dispersion_fit, bin_fit. destruct (bin_train _ _ _ _ _ _ _ _ _ _ _) as [[a|e]|]; try discriminate. intro E. injection E as <-. auto.
Qed.
Lemma dispersion_row prior t X j s : o_scale t = 0 -> o_offset t = 0 -> nth_error X j = Some s ->
  nth_error (dispersion_predict prior t X) j =
  Some (unlink_func Logit (dispersion_start prior s + group_sum alone false 0 (o_groups t) (x_bins s))).
Proof.
  intros S0 O0 J. unfold dispersion_predict. rewrite S0, O0.
  destruct (predict_rows (unlink_func Logit) 0 0 (o_groups t)
      (if prior then Some (map (fun s => linked_dispersion (x_prior s)) X) else None) (map x_bins X)) as [_ P].
  - destruct prior; [|discriminate]. intros l E. injection E as <-. rewrite !map_length. auto.
  - rewrite (P j (x_bins s)) by (apply map_nth_error, J). do 3 f_equal. unfold prior_of, dispersion_start. destruct prior; auto.
    rewrite (nth_error_nth _ _ None (map_nth_error (fun s => linked_dispersion (x_prior s)) j X J)).
    destruct (linked_dispersion (x_prior s)); lra.
Qed.
Lemma clip_inside c : 0 < c < 1 -> clip 0 1 c = c.
Proof. intro H. unfold clip. rewrite Rmax_left by lra. apply Rmin_left. lra. Qed.
Lemma clip_outside c : c <= 0 \/ 1 <= c -> link_func Logit (clip 0 1 c) = None.
Proof.
  intro H. unfold clip. destruct H as [H|H].
  - rewrite Rmax_right by lra. rewrite Rmin_left by lra. cbn. rewrite (proj2 (Rltb_false 0 0)) by lra. reflexivity.
  - rewrite Rmax_left by lra. rewrite Rmin_right by lra. cbn. rewrite (proj2 (Rltb_false 1 1)) by lra. rewrite andb_false_r. reflexivity.
Qed.

Theorem dispersion_prior lgamma gamma bayes n gs cfg rate fuel D t X j s :
  dispersion_fit lgamma gamma bayes n true gs cfg rate fuel D = Trained t -> nth_error X j = Some s ->
  exists v, nth_error (dispersion_predict true t X) j = Some v /\ 0 < v < 1 /\
    (forall c, x_prior s = Some c -> 0 < c < 1 -> odds v = odds c * exp (group_sum alone false 0 (o_groups t) (x_bins s))) /\
    (x_prior s = None -> odds v = exp (group_sum alone false 0 (o_groups t) (x_bins s))).
Proof.
  intros T J. destruct (dispersion_scale _ _ _ _ _ _ _ _ _ _ _ T) as [S0 O0].
  eexists. split; [apply dispersion_row; eauto|]. split; [apply (unlinked_range BinaryClassifier)|]. split.
  - intros c E H. rewrite odds_unlink, exp_plus. f_equal. unfold dispersion_start, linked_dispersion. rewrite E. cbn [option_map link_option].
    rewrite clip_inside by exact H. destruct (link_func Logit c) as [x|] eqn:L; [apply odds_link, L|].
    cbn in L. rewrite (proj2 (Rltb_iff 0 c)), (proj2 (Rltb_iff c 1)) in L by lra. discriminate.
  - intro E. rewrite odds_unlink. f_equal. unfold dispersion_start, linked_dispersion. rewrite E. cbn. lra.
Qed.
Theorem dispersion_no_prior lgamma gamma bayes n gs cfg rate fuel D t X j s :
  dispersion_fit lgamma gamma bayes n false gs cfg rate fuel D = Trained t -> nth_error X j = Some s ->
  exists v, nth_error (dispersion_predict false t X) j = Some v /\ 0 < v < 1 /\
    odds v = exp (group_sum alone false 0 (o_groups t) (x_bins s)).
Proof.
  intros T J. destruct (dispersion_scale _ _ _ _ _ _ _ _ _ _ _ T) as [S0 O0].
  eexists. split; [apply dispersion_row; eauto|]. split; [apply (unlinked_range BinaryClassifier)|].
  rewrite odds_unlink. f_equal. unfold dispersion_start. lra.
Qed.
(** Priors at or beyond the ends count as none. *)
Theorem dispersion_prior_ends lgamma gamma bayes n gs cfg rate fuel D t X j s c :
  dispersion_fit lgamma gamma bayes n true gs cfg rate fuel D = Trained t -> nth_error X j = Some s ->
  x_prior s = Some c -> c <= 0 \/ 1 <= c ->
  exists v, nth_error (dispersion_predict true t X) j = Some v /\ odds v = exp (group_sum alone false 0 (o_groups t) (x_bins s)).
Proof.
  intros T J E H. destruct (dispersion_scale _ _ _ _ _ _ _ _ _ _ _ T) as [S0 O0].
  eexists. split; [apply dispersion_row; eauto|]. rewrite odds_unlink. f_equal.
  unfold dispersion_start, linked_dispersion. rewrite E. cbn [option_map link_option]. rewrite clip_outside by exact H. lra.
Qed.

(** ** Copies of rows in quantile regression *)
Lemma mode_fit_scale sort minimize bppf erfinv reorder bad m prior gs cfg rate fuel D t :
  mode_fit sort minimize bppf erfinv reorder bad m prior gs cfg rate fuel D = Trained t -> mode_scale sort m D = Some (o_scale t).
Proof.
  unfold mode_fit. destruct (mode_scale sort m D) as [scale|]; [|discriminate]. cbv zeta. unfold bin_fit.
  destruct (bin_train _ _ _ _ _ _ _ _ _ _ _) as [[a|e]|]; try discriminate. intro E. injection E as <-. auto.
Qed.
Definition one_heavy : list WholeFit.sample := [w_row 0 1 2].
Definition one_twice : list WholeFit.sample := [w_row 0 1 1; w_row 0 1 1].
Lemma one_content : same_content one_heavy one_twice.
Proof. apply (sc_split (w_row 0 1 2) 1 1 []). cbn. lra. Qed.
Lemma all_equal_perm {A} (x : A) l n : Permutation l (repeat x n) -> l = repeat x n.
Proof.
  revert n. induction l as [|y l IH]; intros n P.
  - apply Permutation_nil in P. auto.
  - assert (y = x) by (eapply repeat_spec; eapply Permutation_in; [exact P|left; auto]). subst y.
    destruct n; [apply Permutation_sym, Permutation_nil in P; discriminate|]. cbn in *. f_equal. apply IH. eapply Permutation_cons_inv; eauto.
Qed.
Lemma heavy_scale sort : sorts sort -> mode_scale sort (AdditiveQuantile (1/2)) one_heavy = Some 1.
Proof.
  intro SO. unfold mode_scale, quantile_global_scale, one_heavy. cbn [map mode_link link_option x_y x_w w_row].
  unfold continuous_quantile. destruct (SO [(1, 2)]) as [P _]. rewrite (all_equal_perm (1, 2) _ 1 P).
  cbn [repeat map sumR snd reaching]. rewrite (proj2 (Rleb_iff _ _)) by lra. cbn. rewrite (proj2 (Reqb_iff 1 1)) by auto. cbn. reflexivity.
Qed.
Lemma twice_scale sort : sorts sort -> mode_scale sort (AdditiveQuantile (1/2)) one_twice = Some 2.
Proof.
  intro SO. unfold mode_scale, quantile_global_scale, one_twice. cbn [map mode_link link_option x_y x_w w_row].
  unfold continuous_quantile. destruct (SO [(1, 1); (1, 1)]) as [P _]. rewrite (all_equal_perm (1, 1) _ 2 P).
  cbn [repeat map sumR snd reaching]. rewrite (proj2 (Rleb_iff _ _)) by lra. cbv zeta. unfold positions. cbn [fst length seq filter nth].
  rewrite !(proj2 (Reqb_iff 1 1)) by auto. cbn [hd last Nat.ltb Nat.leb].
  replace ((1 + (1 + 0)) * (1 / 2)) with (IZR 1) by lra. unfold trunc. rewrite (proj2 (Rleb_iff 0 1)) by lra.
  assert (I : Int_part 1 = 1%Z). { unfold Int_part. rewrite <- (tech_up 1 2); [reflexivity|cbn; lra|cbn; lra]. }
  rewrite I. cbn [link_func INR]. cbn. f_equal. field.
Qed.
Theorem quantile_copies : same_content one_heavy one_twice /\ weighted_data one_heavy /\
  forall sort minimize bppf erfinv reorder bad prior gs cfg rate fuel t t', sorts sort ->
  mode_fit sort minimize bppf erfinv reorder bad (AdditiveQuantile (1/2)) prior gs cfg rate fuel one_heavy = Trained t ->
  mode_fit sort minimize bppf erfinv reorder bad (AdditiveQuantile (1/2)) prior gs cfg rate fuel one_twice = Trained t' ->
  o_scale t = 1 /\ o_scale t' = 2.
Proof.
  split; [exact one_content|]. split.
  { split; [intros s [<-|[]]; cbn; lra|cbn; lra]. }
  intros sort minimize bppf erfinv reorder bad prior gs cfg rate fuel t t' SO T T'.
  apply mode_fit_scale in T. apply mode_fit_scale in T'. rewrite heavy_scale in T by exact SO. rewrite twice_scale in T' by exact SO.
  injection T as <-. injection T' as <-. auto.
Qed.

(** ** Consequences of the formula for the odds *)
Lemma odds_less v w : v < 1 -> w < 1 -> (odds v < odds w <-> v < w).
Proof.
  intros V W. unfold odds.
  assert (E : forall x, x < 1 -> x / (1 - x) = / (1 - x) - 1) by (intros x X; field; lra).
  rewrite (E v V), (E w W). split; intro H.
  - assert (I : / (1 - v) < / (1 - w)) by lra. destruct (Rlt_le_dec v w) as [L|L]; [exact L|exfalso].
    assert (/ (1 - w) <= / (1 - v)) by (apply Rinv_le_contravar; lra). lra.
  - assert (/ (1 - v) < / (1 - w)) by (apply Rinv_lt_contravar; [apply Rmult_lt_0_compat; lra|lra]). lra.
Qed.
Lemma odds_equal v w : v < 1 -> w < 1 -> odds v = odds w -> v = w.
Proof.
  intros V W E. destruct (Rtotal_order v w) as [L|[L|L]]; [|exact L|]; exfalso.
  - apply (proj2 (odds_less v w V W)) in L. lra.
  - apply (proj2 (odds_less w v W V)) in L. lra.
Qed.

Theorem dispersion_larger_prior lgamma gamma bayes n_steps gs cfg rate fuel D t X j j' s s' c c' :
  dispersion_fit lgamma gamma bayes n_steps true gs cfg rate fuel D = Trained t ->
  nth_error X j = Some s -> nth_error X j' = Some s' -> x_bins s = x_bins s' ->
  x_prior s = Some c -> x_prior s' = Some c' -> 0 < c -> c < c' -> c' < 1 ->
  exists v v', nth_error (dispersion_predict true t X) j = Some v /\ nth_error (dispersion_predict true t X) j' = Some v' /\ v < v'.
Proof.
  intros T N N' B P P' C0 L C1.
  destruct (dispersion_prior _ _ _ _ _ _ _ _ _ _ _ _ _ T N) as (v & Nv & Rv & O & _).
  destruct (dispersion_prior _ _ _ _ _ _ _ _ _ _ _ _ _ T N') as (v' & Nv' & Rv' & O' & _).
  specialize (O c P ltac:(lra)). specialize (O' c' P' ltac:(lra)). rewrite <- B in O'.
  exists v, v'. split; [exact Nv|]. split; [exact Nv'|]. apply odds_less; [lra|lra|]. rewrite O, O'.
  apply Rmult_lt_compat_r; [apply exp_pos|]. apply odds_less; lra.
Qed.

Theorem dispersion_returns_prior lgamma gamma bayes n_steps gs cfg rate fuel D t X j s c :
  dispersion_fit lgamma gamma bayes n_steps true gs cfg rate fuel D = Trained t ->
  nth_error X j = Some s -> x_prior s = Some c -> 0 < c < 1 ->
  group_sum alone false 0 (o_groups t) (x_bins s) = 0 ->
  nth_error (dispersion_predict true t X) j = Some c.
Proof.
  intros T N P C Z. destruct (dispersion_prior _ _ _ _ _ _ _ _ _ _ _ _ _ T N) as (v & Nv & Rv & O & _).
  specialize (O c P C). rewrite Z, exp_0, Rmult_1_r in O. rewrite Nv. f_equal. apply odds_equal; [lra|lra|exact O].
Qed.
