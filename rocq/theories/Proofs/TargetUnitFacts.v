(** Targets in another unit give the model in the other unit. *)
From Coq Require Import ZArith QArith Qround List Bool Reals Lra Lia.
From Verif.Model Require Import Num LexBins Train Predict Link Estimators Gbs WholeFit Regularize BinSmoothers.
From Verif.Spec Require Import DataSpec MirrorSpec TargetUnitSpec.
From Verif.Proofs Require Import LinkFacts TrainFacts Simulation ChainFacts OrderFacts ShiftFacts MirrorFacts.
Import ListNotations.
Local Open Scope R_scope.

Section Scale.
Variable b : R.
Hypothesis HB : 0 < b.
Notation scl := (map (Rmult b)).

Lemma scl_map2 (f : R -> R -> R) (E : forall x y, f (b * x) (b * y) = b * f x y) x : forall y, map2 f (scl x) (scl y) = scl (map2 f x y).
Proof. induction x as [|a x IH]; intros [|c y]; cbn; auto. rewrite E. f_equal. apply IH. Qed.
Lemma scl_vadd x y : vadd (scl x) (scl y) = scl (vadd x y).
Proof. apply scl_map2. intros; ring. Qed.
Lemma scl_vsub x y : vsub (scl x) (scl y) = scl (vsub x y).
Proof. apply scl_map2. intros; ring. Qed.
Lemma scl_sum x : sumR (scl x) = b * sumR x.
Proof. clear HB. induction x as [|a x IH]; cbn; [ring|]. rewrite IH. ring. Qed.
Lemma scl_nth x i : nth i (scl x) 0 = b * nth i x 0.
Proof. rewrite <- (Rmult_0_r b) at 1. apply map_nth. Qed.
Lemma scl_gather v bins : gather (scl v) bins = scl (gather v bins).
Proof. unfold gather. rewrite map_map. apply map_ext. intro. apply scl_nth. Qed.
Lemma scl_abs x : map Rabs (scl x) = scl (map Rabs x).
Proof. rewrite !map_map. apply map_ext. intro. rewrite Rabs_mult, (Rabs_pos_eq b) by lra. auto. Qed.
Lemma scl_mean x : mean (scl x) = b * mean x.
Proof. unfold mean. rewrite scl_sum, map_length. unfold Rdiv. ring. Qed.
Lemma scl_firstn n : forall x, firstn n (scl x) = scl (firstn n x).
Proof. induction n; intros [|a x]; cbn; auto. f_equal; auto. Qed.
Lemma scl_zeros n : zeros n = scl (zeros n).
Proof. unfold zeros. clear HB. induction n; cbn; auto. f_equal; auto. ring. Qed.
Lemma scl_mul_l x : forall w, map2 Rmult (scl x) w = scl (map2 Rmult x w).
Proof. clear HB. induction x as [|a x IH]; intros [|c w]; cbn; auto. f_equal; [ring|auto]. Qed.
Lemma scl_mul_r w : forall x, map2 Rmult w (scl x) = scl (map2 Rmult w x).
Proof. clear HB. induction w as [|a w IH]; intros [|c x]; cbn; auto. f_equal; [ring|auto]. Qed.
Lemma scl_total lex : forall x k, bin_total lex (scl x) k = b * bin_total lex x k.
Proof.
  clear HB. induction lex as [|l lex IH]; intros [|a x] k; cbn; try ring. rewrite IH. destruct (Nat.eqb l k); ring.
Qed.

(** ** Estimates *)
Definition scale_estimate (e : option (R * R)) : option (R * R) := option_map (fun e => (b * fst e, b * snd e)) e.

Lemma scl_gbs al lex n y w score : (forall x, In x w -> 0 <= x) -> -1 <= al ->
  gbs_parameters al lex n (scl y) w (scl score) = map scale_estimate (gbs_parameters al lex n y w score).
Proof.
  intros W A. unfold gbs_parameters. cbv zeta. rewrite (scl_map2 Rminus), scl_mul_l by (intros; ring).
  set (x := map2 Rmult (map2 Rminus y score) w). set (d := map _ w). rewrite !scl_mul_l, scl_mul_r, (map_map _ scale_estimate).
  apply map_ext. intro k. unfold gbs_bin. cbv zeta. rewrite !scl_total.
  assert (DP : 0 <= bin_total lex d k).
  { apply total_nonneg. intros z Z. unfold d in Z. apply in_map_iff in Z. destruct Z as [u [<- U]]. apply Rmult_le_pos; [auto|lra]. }
  assert (E : Reqb (bin_total lex d k + 1) 0 = false) by (apply Reqb_false_iff; lra). rewrite E.
  set (a := bin_total lex x k). set (c := bin_total lex d k + 1) in *. set (xx := bin_total lex (map2 Rmult x x) k).
  set (xd := bin_total lex (map2 Rmult x d) k). set (dd := bin_total lex (map2 Rmult d d) k + 1 ^ 2).
  assert (C : 0 < c) by (unfold c; lra).
  set (v := (c ^ 2 * xx - 2 * a * c * xd + a ^ 2 * dd) / c ^ 4).
  replace ((c ^ 2 * (b * (b * xx)) - 2 * (b * a) * c * (b * xd) + (b * a) ^ 2 * dd) / c ^ 4) with (b * b * v) by (unfold v; field; lra).
  clearbody v xx xd dd. assert (BB : 0 < b * b) by nra.
  destruct (Rltb v 0) eqn:Q.
  - apply Rltb_iff in Q. assert (Q' : Rltb (b * b * v) 0 = true) by (apply Rltb_iff; nra). rewrite Q'. auto.
  - apply Rltb_false in Q. assert (Q' : Rltb (b * b * v) 0 = false) by (apply Rltb_false; nra). rewrite Q'. cbn. f_equal. f_equal.
    + unfold Rdiv. ring.
    + rewrite sqrt_mult by nra. rewrite sqrt_square by lra. auto.
Qed.

Lemma visits_scale y : map (fun v => if Reqb v 0 then 0 else 1) (scl y) = map (fun v => if Reqb v 0 then 0 else 1) y.
Proof.
  rewrite map_map. apply map_ext. intro x. destruct (Reqb x 0) eqn:A.
  - apply Reqb_iff in A. assert (B : Reqb (b * x) 0 = true) by (apply Reqb_iff; subst; ring). rewrite B. auto.
  - apply Reqb_false_iff in A. assert (B : Reqb (b * x) 0 = false) by (apply Reqb_false_iff; nra). rewrite B. auto.
Qed.
Lemma squares_scale w : forall score y, sumR (map2 Rmult w (map2 (fun p v => (p - v) ^ 2) (scl score) (scl y))) =
  b ^ 2 * sumR (map2 Rmult w (map2 (fun p v => (p - v) ^ 2) score y)).
Proof.
  clear HB. induction w as [|x w IH]; intros [|p score] [|v y]; cbn [map map2 sumR]; try ring. rewrite IH. ring.
Qed.
End Scale.

(** ** Sums *)
Lemma Rleb_above x y : Rleb x y = false <-> y < x.
Proof. unfold Rleb. destruct (Rle_dec x y); split; intro; auto; try discriminate; lra. Qed.
Lemma sum_nonneg l : (forall x, In x l -> 0 <= x) -> 0 <= sumR l.
Proof.
  induction l as [|a l IH]; cbn; intro H; [lra|]. pose proof (H a (or_introl eq_refl)). pose proof (IH (fun x X => H x (or_intror X))). lra.
Qed.
Lemma sum_above l : (forall x, In x l -> 0 <= x) -> forall i, nth i l 0 <= sumR l.
Proof.
  induction l as [|a l IH]; intros H [|i]; cbn; try lra.
  - pose proof (sum_nonneg l (fun x X => H x (or_intror X))). lra.
  - pose proof (IH (fun x X => H x (or_intror X)) i). pose proof (H a (or_introl eq_refl)). lra.
Qed.
Lemma nth_map2_eq (f : R -> R -> R) (F : f 0 0 = 0) : forall x y i, length x = length y -> nth i (map2 f x y) 0 = f (nth i x 0) (nth i y 0).
Proof.
  induction x as [|a x IH]; intros [|c y] [|i] L; cbn in *; try discriminate; auto.
Qed.

(** ** The training *)
Section Unit.
Variable gm : R -> R.
Variable bppf : R -> R -> R -> R.
Variable erfinv : R -> R.
Variable bad : R.
Variable al : R.
Variable prior_column : bool.
Variable gs : list group.
Variable cfg : settings.
Variable rate : nat -> nat -> R.
Variable D : list sample.
Variable b : R.
Hypothesis HB : 0 < b.
Notation scl := (map (Rmult b)).
Let k := GBSRegressor al.
Let D' := map (unit_row b) D.
Let cfg' := unit_settings b cfg.
Let n := length D.
Hypothesis AL : -1 <= al.
Hypothesis WN : forall s, In s D -> 0 <= x_w s.
Hypothesis LOG : c_log cfg = false.
Hypothesis MF : c_minfactor cfg < 100.
Hypothesis MF' : b * c_minfactor cfg < 100.
Hypothesis SM : forall g, In g gs -> unit_smoother (g_smoother g).
(** The two rows that differ in the target only. *)
Variables r1 r2 : nat.
Variables s1 s2 : sample.
Hypothesis N1 : nth_error D r1 = Some s1.
Hypothesis N2 : nth_error D r2 = Some s2.
Hypothesis NB : forall i, x_bins s1 i = x_bins s2 i.
Hypothesis NP : x_prior s1 = x_prior s2.
Hypothesis NW1 : 0 < x_w s1.
Hypothesis NW2 : 0 < x_w s2.
Hypothesis NY : x_y s1 <> x_y s2.

Definition agree (l : list R) : Prop := nth r1 l 0 = nth r2 l 0.

Lemma bind_unit : forall hs i, bind_groups D' i hs = bind_groups D i hs.
Proof. induction hs as [|h hs IH]; intro i; cbn; auto. rewrite IH. f_equal. unfold bind_group. f_equal. unfold D'. rewrite map_map. auto. Qed.
Lemma ys_unit : map x_y D' = scl (map x_y D).
Proof. unfold D'. rewrite !map_map. auto. Qed.
Lemma ws_unit : map x_w D' = map x_w D.
Proof. unfold D'. rewrite map_map. auto. Qed.
Lemma ws_nonneg x : In x (map x_w D) -> 0 <= x.
Proof. intro X. apply in_map_iff in X. destruct X as [s [<- S]]. auto. Qed.

Lemma nth_row {A} (f : sample -> A) (d : A) r s : nth_error D r = Some s -> nth r (map f D) d = f s.
Proof. intro H. apply nth_error_nth. apply map_nth_error. auto. Qed.

(** The losses. *)
Lemma visits_positive : 0 < sumR (map2 Rmult (map (fun v => if Reqb v 0 then 0 else 1) (map x_y D)) (map x_w D)).
Proof.
  set (l := map2 Rmult _ _).
  assert (NN : forall x, In x l -> 0 <= x).
  { intros x X. apply in_map2 in X. destruct X as [u [v [U [V ->]]]]. apply in_map_iff in U. destruct U as [z [<- _]].
    pose proof (ws_nonneg v V). destruct (Reqb z 0); lra. }
  pose proof (sum_above l NN r1) as A1. pose proof (sum_above l NN r2) as A2.
  assert (E : forall r s, nth_error D r = Some s -> nth r l 0 = (if Reqb (x_y s) 0 then 0 else 1) * x_w s).
  { intros r s H. unfold l. rewrite nth_map2_eq by (rewrite ?map_length; auto; ring). rewrite map_map.
    rewrite (nth_row (fun x => if Reqb (x_y x) 0 then 0 else 1) 0 r s H), (nth_row x_w 0 r s H). auto. }
  rewrite (E _ _ N1) in A1. rewrite (E _ _ N2) in A2. clear E NN.
  destruct (Reqb (x_y s1) 0) eqn:Q1; [|lra]. destruct (Reqb (x_y s2) 0) eqn:Q2; [|lra].
  apply Reqb_iff in Q1, Q2. congruence.
Qed.
Lemma loss_unit score : length score = n ->
  kind_loss bad k (scl (map x_y D)) (map x_w D) (scl score) = b ^ 2 * kind_loss bad k (map x_y D) (map x_w D) score.
Proof.
  intro L. unfold kind_loss, k, gbs_loss. cbv zeta. cbn [kind_link unlink_func]. rewrite !map_id, visits_scale by auto.
  pose proof visits_positive as V. assert (E : Reqb (sumR (map2 Rmult (map (fun v => if Reqb v 0 then 0 else 1) (map x_y D)) (map x_w D))) 0 = false)
    by (apply Reqb_false_iff; lra).
  rewrite E, squares_scale. unfold Rdiv. ring.
Qed.
Lemma loss_positive score : length score = n -> agree score -> 0 < kind_loss bad k (map x_y D) (map x_w D) score.
Proof.
  intros L A. unfold kind_loss, k, gbs_loss. cbv zeta. cbn [kind_link unlink_func]. rewrite !map_id.
  pose proof visits_positive as V. assert (E : Reqb (sumR (map2 Rmult (map (fun v => if Reqb v 0 then 0 else 1) (map x_y D)) (map x_w D))) 0 = false)
    by (apply Reqb_false_iff; lra).
  rewrite E. apply Rdiv_lt_0_compat; auto. clear E V.
  set (l := map2 Rmult (map x_w D) _).
  assert (NN : forall x, In x l -> 0 <= x).
  { intros x X. apply in_map2 in X. destruct X as [u [v [U [X ->]]]]. apply in_map2 in X. destruct X as [p [y [_ [_ ->]]]].
    apply Rmult_le_pos; [apply ws_nonneg; auto|apply pow2_ge_0]. }
  pose proof (sum_above l NN r1) as A1. pose proof (sum_above l NN r2) as A2.
  assert (X : forall r s, nth_error D r = Some s -> nth r l 0 = x_w s * (nth r score 0 - x_y s) ^ 2).
  { intros r s H. unfold l.
    assert (LL : forall (a c : list R) (f : R -> R -> R), length a = length c -> length (map2 f a c) = length c).
    { intros a c f. revert c. induction a as [|u a IH]; intros [|v c] Q; cbn in *; try discriminate; auto. }
    rewrite nth_map2_eq; [|ring|rewrite LL; rewrite ?map_length; auto].
    rewrite nth_map2_eq; [|ring|rewrite map_length; auto].
    rewrite (nth_row x_w 0 r s H), (nth_row x_y 0 r s H). auto. }
  rewrite (X _ _ N1) in A1. rewrite (X _ _ N2) in A2. clear X NN. unfold agree in A. rewrite <- A in A2.
  set (p := nth r1 score 0) in *. clearbody p. clearbody l.
  destruct (Req_dec p (x_y s1)) as [Q|Q].
  - assert (P : p - x_y s2 <> 0) by (intro Z; apply NY; lra).
    assert (0 < (p - x_y s2) ^ 2) by (rewrite <- Rsqr_pow2; apply Rsqr_pos_lt; auto). nra.
  - assert (P : p - x_y s1 <> 0) by (intro Z; apply Q; lra).
    assert (0 < (p - x_y s1) ^ 2) by (rewrite <- Rsqr_pow2; apply Rsqr_pos_lt; auto). nra.
Qed.

(** The relation of the two trainings. *)
Definition rpu (p q : preds) : Prop := p_factors q = scl (p_factors p) /\ length (p_factors p) = n /\ agree (p_factors p).
Definition rfu (_ : nat) (a c : list R) : Prop := c = scl a.

Lemma estimates_unit j p q : rpu p q ->
  group_estimates gm bppf erfinv k (bind_groups D 0 gs) (map x_y D') (map x_w D') j q =
    map (scale_estimate b) (group_estimates gm bppf erfinv k (bind_groups D 0 gs) (map x_y D) (map x_w D) j p) /\
  Forall (fun e => e <> None) (group_estimates gm bppf erfinv k (bind_groups D 0 gs) (map x_y D) (map x_w D) j p).
Proof.
  intros [P [L _]]. unfold group_estimates. destruct (nth_error gs j) as [g|] eqn:G.
  - rewrite (bind_nth gs 0 j g G). cbn [Nat.add]. rewrite P, ys_unit, ws_unit. unfold k. cbn [estimates]. split.
    + apply scl_gbs; auto. apply ws_nonneg.
    + apply gbs_finite; auto; rewrite ?map_length; auto. apply ws_nonneg.
  - assert (E : nth_error (bind_groups D 0 gs) j = None).
    { apply nth_error_None in G. apply nth_error_None.
      assert (X : forall hs i, length (bind_groups D i hs) = length hs) by (induction hs; intro; cbn; auto). rewrite X. auto. }
    rewrite E. auto.
Qed.
Lemma values_unit es : Forall (fun e => e <> None) es ->
  map (estimate_value bad) (map (scale_estimate b) es) = scl (map (estimate_value bad) es) /\
  map (estimate_uncertainty bad) (map (scale_estimate b) es) = scl (map (estimate_uncertainty bad) es).
Proof.
  induction 1 as [|e es H _ [I1 I2]]; cbn; auto. destruct e as [[f u]|]; [|congruence]. cbn. rewrite I1, I2. auto.
Qed.

Lemma gather_agree i g v : agree (gather v (f_lex (bind_group D i g))).
Proof.
  unfold agree. rewrite (f_lex_map (bind_group D i g) D i eq_refl). set (h := fun s : sample => Z.to_nat _).
  unfold gather. rewrite map_map. rewrite (nth_row (fun s => nth (h s) v 0) 0 r1 s1 N1), (nth_row (fun s => nth (h s) v 0) 0 r2 s2 N2).
  unfold h. rewrite NB. auto.
Qed.

Notation calcs Y W := (fun i (_ : nat) p => map (estimate_value bad) (group_estimates gm bppf erfinv k (bind_groups D 0 gs) Y W i p)).
Notation smooths Y W := (fun i (_ : nat) p => group_smoother gm bppf erfinv bad k gs (bind_groups D 0 gs) Y W i p).

Lemma rgl_unit : forall hs i, (forall j g, nth_error hs j = Some g -> nth_error gs (i + j) = Some g) ->
  RGL (calcs (map x_y D) (map x_w D)) (calcs (map x_y D') (map x_w D'))
      (smooths (map x_y D) (map x_w D)) (smooths (map x_y D') (map x_w D'))
      (kind_calibration k (bind_groups D 0 gs) (map x_w D)) (kind_calibration k (bind_groups D 0 gs) (map x_w D'))
      rate rate rpu rfu i (bind_groups D i hs) (bind_groups D i hs).
Proof.
  induction hs as [|g hs IH]; intros i IN; cbn [bind_groups]; constructor.
  2:{ apply IH. intros j h J. replace (S i + j)%nat with (i + S j)%nat by lia. apply IN. auto. }
  assert (LX : length (f_lex (bind_group D i g)) = n) by (rewrite (f_lex_map (bind_group D i g) D i eq_refl), map_length; auto).
  constructor; auto.
  - unfold rfu. apply scl_zeros.
  - intros p q v u [P [L A]] ->. unfold rpu in *. change (f_ext _) with false; cbn [add_preds p_factors]. rewrite P, scl_gather, scl_vadd.
    assert (LG : length (p_factors p) = length (gather v (f_lex (bind_group D i g)))) by (rewrite gather_length; congruence).
    split; [auto|split; [rewrite vadd_length; auto|]].
    unfold agree in *. unfold vadd. rewrite !nth_map2_eq by (auto; ring). rewrite A. f_equal. apply gather_agree.
  - intros p q v u [P [L A]] ->. unfold rpu in *. change (f_ext _) with false; cbn [sub_preds p_factors]. rewrite P, scl_gather, scl_vsub.
    assert (LG : length (p_factors p) = length (gather v (f_lex (bind_group D i g)))) by (rewrite gather_length; congruence).
    split; [auto|split; [rewrite vsub_length; auto|]].
    unfold agree in *. unfold vsub. rewrite !nth_map2_eq by (auto; ring). rewrite A. f_equal. apply gather_agree.
  - intros s t it p q Sr P. unfold new_factors. destruct (estimates_unit i p q P) as [E FN].
    pose proof (values_unit _ FN) as [V U]. cbv zeta. cbn [fst snd]. rewrite E, V, <- (rs_zero _ _ _ _ Sr), ws_unit.
    split; [reflexivity|]. unfold rfu, k. cbn [kind_calibration]. rewrite map_app. cbn [map]. f_equal.
    + rewrite (map_map _ (Rmult b) (seq _ _)). apply map_ext. intro c. destruct (s_zero s); [ring|].
      rewrite scl_firstn. unfold group_smoother. pose proof (IN 0%nat g eq_refl) as G. rewrite Nat.add_0_r in G. rewrite G, (bind_nth gs 0 i g G).
      rewrite ws_unit in E. fold k. rewrite E, U, scl_firstn. rewrite (SM g (nth_error_In _ _ G)) by auto.
      match goal with |- context [option_map (Rmult b) ?o] => destruct o end; cbn; ring.
    + f_equal. destruct (f_mnl (bind_group D i g)); [ring|]. rewrite scl_nth. ring.
Qed.

(** Without the logarithmic link a pass does not look at the loss. *)
Lemma pass_without_loss calc smooth calib l l' ini ini' it d dv : forall fl i sl p,
  features_pass cfg calc smooth calib rate l i fl sl it p d dv ini = features_pass cfg calc smooth calib rate l' i fl sl it p d dv ini'.
Proof.
  induction fl as [|f fl IH]; intros i [|s sl] p; cbn [features_pass]; auto. cbv zeta.
  assert (E : feature_iteration cfg calc smooth calib rate l i f s it p d dv ini = feature_iteration cfg calc smooth calib rate l' i f s it p d dv ini').
  { unfold feature_iteration, visit_factors, limit_factors. rewrite LOG. cbn [andb]. reflexivity. }
  rewrite E. destruct (if skipped cfg f it then _ else _) as [[s' p']|e]; auto. rewrite IH. auto.
Qed.

Let F := bind_groups D 0 gs.
Let calc1 := calcs (map x_y D) (map x_w D).
Let calc2 := calcs (map x_y D') (map x_w D').
Let smooth1 := smooths (map x_y D) (map x_w D).
Let smooth2 := smooths (map x_y D') (map x_w D').
Let calib1 := kind_calibration k F (map x_w D).
Let calib2 := kind_calibration k F (map x_w D').
Let loss1 := fun p => kind_loss bad k (map x_y D) (map x_w D) (p_factors p).
Let loss2 := fun p => kind_loss bad k (map x_y D') (map x_w D') (p_factors p).

Lemma losses_unit p q : rpu p q -> loss2 q = b ^ 2 * loss1 p /\ 0 < loss1 p.
Proof.
  intros [P [L A]]. unfold loss1, loss2. rewrite P, ys_unit, ws_unit. split; [apply loss_unit; auto|apply loss_positive; auto].
Qed.
Lemma pass_unit it d dv ini ini' sl tl p q : RSL rfu 0 sl tl -> rpu p q ->
  RO (fun x y => RSL rfu 0 (fst x) (fst y) /\ rpu (snd x) (snd y))
    (features_pass cfg calc1 smooth1 calib1 rate loss1 0 F sl it p d dv ini)
    (features_pass cfg' calc2 smooth2 calib2 rate loss2 0 F tl it q d dv ini').
Proof.
  intros SL P.
  change (features_pass cfg' calc2 smooth2 calib2 rate loss2 0 F tl it q d dv ini')
    with (features_pass cfg calc2 smooth2 calib2 rate loss2 0 F tl it q d dv ini').
  rewrite (pass_without_loss calc1 smooth1 calib1 loss1 (fun _ => 0) ini 0).
  rewrite (pass_without_loss calc2 smooth2 calib2 loss2 (fun _ => 0) ini' 0).
  eapply sim_pass; auto.
  - intros i a c u v -> ->. apply scl_vadd.
  - rewrite LOG. discriminate.
  - rewrite LOG. discriminate.
  - rewrite LOG. discriminate.
  - apply rgl_unit. auto.
Qed.
Lemma remove_unit sl tl p q : RSL rfu 0 sl tl -> rpu p q ->
  RO (fun x y => RSL rfu 0 (fst x) (fst y) /\ rpu (snd x) (snd y)) (remove_preds F sl p) (remove_preds F tl q).
Proof.
  intros SL P. eapply sim_remove; auto.
  - intros i a c u v -> ->. apply scl_vsub.
  - apply rgl_unit. auto.
Qed.
Lemma deviation_unit sl tl : forall i, RSL rfu i sl tl -> factors_deviation tl = b * factors_deviation sl.
Proof.
  intros i H. unfold factors_deviation. rewrite <- scl_mean. f_equal. rewrite map_map. induction H as [|i s t sl tl H _ IH]; cbn [map]; auto. f_equal; auto.
  destruct H as [_ A B _ _]. rewrite A, B, scl_vsub, scl_abs by auto. apply scl_mean.
Qed.

Record RTU (x y : state) : Prop := {
  ru_preds : rpu (t_preds x) (t_preds y);
  ru_feats : RSL rfu 0 (t_feats x) (t_feats y);
  ru_iter : t_iter x = t_iter y;
  ru_diverging : t_diverging x = t_diverging y;
  ru_isdiv : t_isdiv x = t_isdiv y;
  ru_loss : t_loss y = b ^ 2 * t_loss x;
  ru_positive : 0 < t_loss x;
  ru_losschange : t_losschange x = t_losschange y;
  ru_delta : stop_factor_change cfg x = stop_factor_change cfg' y }.

Lemma diverged_unit ini l : is_diverged (b ^ 2 * ini) (b ^ 2 * l) = is_diverged ini l.
Proof.
  unfold is_diverged. assert (BB : 0 < b ^ 2) by (apply pow_lt; auto). clearbody loss1 loss2. set (c := b ^ 2) in *. clearbody c.
  destruct (Rltb (ini * 2) l) eqn:E.
  - apply Rltb_iff in E. apply Rltb_iff. nra.
  - apply Rltb_false in E. apply Rltb_false. nra.
Qed.
Lemma change_unit old new : 0 < old -> loss_change (b ^ 2 * old) (b ^ 2 * new) = loss_change old new.
Proof.
  intro H. assert (BB : 0 < b ^ 2) by (apply pow_lt; auto). unfold loss_change.
  assert (E1 : Reqb old 0 = false) by (apply Reqb_false_iff; lra).
  assert (E2 : Reqb (b ^ 2 * old) 0 = false) by (apply Reqb_false_iff; apply Rgt_not_eq; apply Rmult_lt_0_compat; auto).
  rewrite E1, E2. field. lra.
Qed.
Lemma delta_unit x : Rleb x (c_minfactor cfg) = Rleb (b * x) (c_minfactor cfg').
Proof.
  unfold cfg'. cbn [unit_settings c_minfactor]. set (m := c_minfactor cfg). destruct (Rleb x m) eqn:E.
  - apply Rleb_iff in E. symmetry. apply Rleb_iff. nra.
  - apply Rleb_above in E. symmetry. apply Rleb_above. nra.
Qed.

Lemma iteration_unit ini x y : RTU x y ->
  RO RTU (iteration cfg F calc1 smooth1 calib1 rate loss1 ini x) (iteration cfg' F calc2 smooth2 calib2 rate loss2 (b ^ 2 * ini) y).
Proof.
  intros T. unfold iteration. rewrite <- (ru_iter _ _ T), <- (ru_isdiv _ _ T), <- (ru_diverging _ _ T), (ru_loss _ _ T).
  pose proof (pass_unit (t_iter x) (t_isdiv x) (t_diverging x) ini (b ^ 2 * ini) _ _ _ _ (ru_feats _ _ T) (ru_preds _ _ T)) as R.
  destruct (features_pass cfg calc1 _ _ _ _ _ _ _ _ _ _ _ _) as [[sl p]|e], (features_pass cfg' calc2 _ _ _ _ _ _ _ _ _ _ _ _) as [[tl q]|e'];
    cbn in R; try contradiction; try exact R.
  destruct R as [SL P]. cbv zeta. destruct (losses_unit p q P) as [L LP]. rewrite L, diverged_unit, (change_unit _ _ (ru_positive _ _ T)).
  assert (DD : forall y z, t_delta y = factors_deviation sl -> t_delta z = factors_deviation tl -> stop_factor_change cfg y = stop_factor_change cfg' z).
  { intros u v Y Z. unfold stop_factor_change. rewrite Y, Z, (deviation_unit sl tl 0 SL). apply delta_unit. }
  destruct (is_diverged ini (loss1 p)) eqn:DV; cbn [andb].
  - match goal with |- context [if ?c then Raise ConvergenceError else _] => destruct c end; [reflexivity|].
    pose proof (remove_unit _ _ _ _ SL P) as R.
    destruct (remove_preds F sl p) as [[r u]|e], (remove_preds F tl q) as [[r' u']|e']; cbn in R; try contradiction; try exact R.
    destruct R. constructor; cbn [t_preds t_feats t_iter t_diverging t_isdiv t_loss t_losschange t_delta]; auto.
  - constructor; cbn [t_preds t_feats t_iter t_diverging t_isdiv t_loss t_losschange t_delta]; auto.
Qed.
Lemma finish_unit ini x y : RTU x y -> RO RTU (finish ini x) (finish (b ^ 2 * ini) y).
Proof.
  intros T. unfold finish.
  assert (E : forall i sl tl, RSL rfu i sl tl -> forallb (fun s => match s_agg s with Some _ => true | None => false end) sl =
    forallb (fun s => match s_agg s with Some _ => true | None => false end) tl).
  { intros i sl tl H. induction H as [|i s t sl tl H]; cbn; auto. f_equal; auto. pose proof (rs_agg _ _ _ _ H) as A. unfold RA in A.
    destruct (s_agg s), (s_agg t); auto; contradiction. }
  rewrite <- (E 0%nat _ _ (ru_feats _ _ T)), (ru_loss _ _ T), <- (ru_diverging _ _ T), diverged_unit.
  destruct (forallb _ _); [|cbn; reflexivity]. match goal with |- context [if ?c then Raise ConvergenceError else _] => destruct c end; [cbn; reflexivity|exact T].
Qed.
Definition ROOU (x y : option (outcome state)) : Prop :=
  match x, y with Some x, Some y => RO RTU x y | None, None => True | _, _ => False end.
Lemma loop_unit ini fuel : forall x y, RTU x y ->
  ROOU (loop cfg F calc1 smooth1 calib1 rate loss1 fuel ini x) (loop cfg' F calc2 smooth2 calib2 rate loss2 fuel (b ^ 2 * ini) y).
Proof.
  induction fuel as [|fuel IH]; intros x y T.
  all: assert (E : continues cfg x = continues cfg' y) by
    (unfold continues, check_stop; rewrite (ru_delta _ _ T); unfold stop_iterations, stop_loss_change, veto_hierarchical;
     rewrite <- (ru_iter _ _ T), <- (ru_isdiv _ _ T), <- (ru_losschange _ _ T); reflexivity).
  - cbn [loop]. rewrite <- E. destruct (continues cfg x); cbn; auto. apply finish_unit; auto.
  - cbn [loop]. rewrite <- E. destruct (continues cfg x); [|cbn; apply finish_unit; auto].
    pose proof (iteration_unit ini x y T) as I.
    destruct (iteration cfg F _ _ _ _ _ _ _) as [u|e], (iteration cfg' F _ _ _ _ _ _ _) as [v|e']; cbn in I; try contradiction; cbn; auto.
Qed.

Lemma link_unit v : link_option (kind_link k) (option_map (Rmult b) v) = option_map (Rmult b) (link_option (kind_link k) v).
Proof. destruct v; reflexivity. Qed.
Lemma start_unit scale offset (X : list sample) :
  prior_predictions (b * scale) (b * offset) (linked_column k prior_column (map (unit_row b) X)) (length (map (unit_row b) X)) =
  scl (prior_predictions scale offset (linked_column k prior_column X) (length X)).
Proof.
  unfold prior_predictions, linked_column. destruct prior_column.
  - unfold linked_prior. rewrite !map_map. apply map_ext. intro s. cbn [unit_row x_prior]. rewrite link_unit.
    destruct (link_option (kind_link k) (x_prior s)); cbn; ring.
  - rewrite map_length. generalize (length X). induction n0; cbn; auto. f_equal; auto.
Qed.
Lemma start_agree scale offset : agree (prior_predictions scale offset (linked_column k prior_column D) (length D)).
Proof.
  unfold agree, prior_predictions, linked_column. destruct prior_column.
  - unfold linked_prior. rewrite !map_map.
    match goal with |- nth r1 (map ?f D) 0 = _ => rewrite (nth_row f 0 r1 s1 N1), (nth_row f 0 r2 s2 N2) end. rewrite NP. auto.
  - assert (I1 : (r1 < length D)%nat) by (apply nth_error_Some; congruence).
    assert (I2 : (r2 < length D)%nat) by (apply nth_error_Some; congruence).
    rewrite !nth_repeat_lt || idtac. revert I1 I2. generalize (length D). clear. intros m I1 I2.
    assert (E : forall r m, (r < m)%nat -> nth r (repeat scale m) 0 = scale) by (induction r; intros [|m'] H; cbn; try lia; auto; apply IHr; lia).
    rewrite !E; auto.
Qed.

Lemma train_unit fuel scale offset :
  ROOU (train gm bppf erfinv bad k prior_column gs cfg rate fuel D scale offset)
       (train gm bppf erfinv bad k prior_column gs cfg' rate fuel D' (b * scale) (b * offset)).
Proof.
  unfold train. cbv zeta. rewrite bind_unit. unfold fit_main.
  set (p := {| p_factors := prior_predictions scale offset _ _; p_exponents := _ |}).
  set (q := {| p_factors := prior_predictions (b * scale) (b * offset) _ _; p_exponents := _ |}).
  assert (P : rpu p q).
  { unfold rpu, p, q. cbn [p_factors]. split; [unfold D'; apply start_unit|split; [apply start_length|apply start_agree]]. }
  clearbody p q. destruct (losses_unit p q P) as [L LP].
  pose proof (loop_unit (loss1 p) fuel (init_state F loss1 p) (init_state F loss2 q)) as T.
  rewrite <- L in T. apply T. clear T.
  constructor; cbn [init_state t_preds t_feats t_iter t_diverging t_isdiv t_loss t_losschange t_delta]; auto.
  - assert (E : forall fl i, RSL rfu i (map init_fstate fl) (map init_fstate fl)).
    { induction fl; intro; cbn; constructor; auto. constructor; cbn [init_fstate s_fitted s_factors s_old s_agg s_zero]; try reflexivity; try exact I; apply scl_zeros. }
    apply E.
  - unfold stop_factor_change, cfg'. cbn [init_state t_delta unit_settings c_minfactor].
    assert (E1 : Rleb 100 (c_minfactor cfg) = false) by (apply Rleb_above; lra).
    assert (E2 : Rleb 100 (b * c_minfactor cfg) = false) by (apply Rleb_above; lra). rewrite E1, E2. auto.
Qed.

Lemma store_unit f s t i : RS rfu i s t -> store f t = unit_group b (store f s).
Proof.
  intro H. pose proof (rs_agg _ _ _ _ H) as A. unfold RA in A. unfold store, unit_group. cbv zeta.
  destruct (s_agg s) as [a|], (s_agg t) as [c|]; try contradiction; cbn [m_dim m_nbins m_ext m_values m_missing m_smoother].
  - rewrite A, scl_firstn, scl_nth. auto.
  - f_equal.
    + destruct (f_finite f); auto.
    + destruct (f_finite f); cbn; ring.
Qed.

Lemma fit_unit scale fuel :
  fit_from gm bppf erfinv bad k prior_column gs cfg' rate fuel (b * scale) D' =
  unit_result b (fit_from gm bppf erfinv bad k prior_column gs cfg rate fuel scale D).
Proof.
  unfold fit_from. cbv zeta. unfold k. cbn [kind_offset]. fold k. pose proof (train_unit fuel scale 0) as R. rewrite Rmult_0_r in R.
  destruct (train _ _ _ _ _ _ _ _ _ _ D _ _) as [[x|e]|], (train _ _ _ _ _ _ _ _ _ _ D' _ _) as [[y|e']|]; cbn in R; try contradiction; auto.
  - cbn [unit_result]. unfold unit_model. cbn [o_scale o_offset o_groups o_iterations o_loss]. rewrite bind_unit, Rmult_0_r.
    rewrite (ru_iter _ _ R), (ru_loss _ _ R). f_equal. f_equal.
    assert (St : forall i sl tl, RSL rfu i sl tl -> forall fl, map2 store fl tl = map (unit_group b) (map2 store fl sl)).
    { intros i sl tl H. induction H; intros [|f fl]; cbn; auto. f_equal; auto. eapply store_unit; eauto. }
    apply (St 0%nat _ _ (ru_feats _ _ R)).
  - rewrite R. auto.
Qed.
End Unit.

(** ** Predictions *)
Lemma predict_group_unit b m rows : predict_factors (unit_group b m) rows = map (Rmult b) (predict_factors m rows).
Proof.
  unfold predict_factors. cbv zeta. rewrite map_map. apply map_ext. intro row. cbn [unit_group m_dim m_nbins m_ext m_values m_missing m_smoother].
  destruct (row_finite_semi_positive row); auto. destruct (_ && m_smoother m); [|ring].
  assert (E : smoother_predict (unit_group b m) row = option_map (Rmult b) (smoother_predict m row)).
  { unfold smoother_predict. cbn [unit_group m_dim m_nbins m_ext m_values m_missing m_smoother]. destruct (Nat.ltb (m_dim m) 2).
    - unfold onedim_predict. rewrite ?map_length.
      match goal with |- context [if ?c then _ else _] => destruct c end; auto; cbn; rewrite scl_nth; auto.
    - unfold multidim_predict. destruct (floors_below row (m_nbins m)); auto. cbn. rewrite scl_nth. auto. }
  rewrite E. destruct (smoother_predict m row); cbn; ring.
Qed.
Lemma predict_from_unit b X : forall ms i p q, (forall m, In m ms -> m_ext m = false) -> p_factors q = map (Rmult b) (p_factors p) ->
  p_factors (predict_from i (map (unit_group b) ms) q X) = map (Rmult b) (p_factors (predict_from i ms p X)).
Proof.
  induction ms as [|m ms IH]; intros i p q H P; cbn; auto. apply IH; [intros; apply H; right; auto|].
  rewrite (H m (or_introl eq_refl)). cbn [add_preds p_factors]. rewrite P, predict_group_unit. apply scl_vadd.
Qed.
Lemma predict_unit b al prior_column m X : (forall g, In g (o_groups m) -> m_ext g = false) ->
  whole_predict (GBSRegressor al) prior_column (unit_model b m) (map (unit_row b) X) =
  map (Rmult b) (whole_predict (GBSRegressor al) prior_column m X).
Proof.
  intros H. unfold whole_predict, cb_predict, predict_extended. cbn [unit_model o_scale o_offset o_groups].
  assert (B : map x_bins (map (unit_row b) X) = map x_bins X) by (rewrite map_map; auto). rewrite B.
  match goal with |- map _ (p_factors (predict_from 0 _ ?q _)) = map _ (map _ (p_factors (predict_from 0 _ ?p _))) => set (q0 := q); set (p0 := p) end.
  assert (P : p_factors q0 = map (Rmult b) (p_factors p0)).
  { unfold q0, p0. cbn [p_factors]. pose proof (start_unit al prior_column b (o_scale m) (o_offset m) X) as S.
    rewrite !map_length in *. exact S. }
  rewrite (predict_from_unit b _ _ _ p0 q0 H P). rewrite !map_map. apply map_ext. intro v. reflexivity.
Qed.

Theorem gbs_unit gm bppf erfinv bad al prior gs cfg rate fuel D b :
  0 < b -> -1 <= al -> (forall s, In s D -> 0 <= x_w s) -> noisy_targets D -> c_log cfg = false ->
  c_minfactor cfg < 100 -> b * c_minfactor cfg < 100 -> (forall g, In g gs -> unit_smoother (g_smoother g)) ->
  let k := GBSRegressor al in
  whole_fit gm bppf erfinv bad k prior gs (unit_settings b cfg) rate fuel (map (unit_row b) D) =
    unit_result b (whole_fit gm bppf erfinv bad k prior gs cfg rate fuel D) /\
  forall m m' X, whole_fit gm bppf erfinv bad k prior gs cfg rate fuel D = Trained m ->
    whole_fit gm bppf erfinv bad k prior gs (unit_settings b cfg) rate fuel (map (unit_row b) D) = Trained m' ->
    whole_predict k prior m' (map (unit_row b) X) = map (Rmult b) (whole_predict k prior m X).
Proof.
  intros HB A W [s [t [S1 [S2 [NB [NP [W1 [W2 NY]]]]]]]] LOG MF MF' SM k.
  destruct (In_nth_error _ _ S1) as [r1 N1]. destruct (In_nth_error _ _ S2) as [r2 N2].
  assert (M : whole_fit gm bppf erfinv bad k prior gs (unit_settings b cfg) rate fuel (map (unit_row b) D) =
    unit_result b (whole_fit gm bppf erfinv bad k prior gs cfg rate fuel D)).
  { rewrite !whole_is_from.
    assert (E : kind_scale k (map x_y (map (unit_row b) D)) (map x_w (map (unit_row b) D)) = option_map (Rmult b) (kind_scale k (map x_y D) (map x_w D))).
    { rewrite !map_map. cbn [unit_row x_w x_y]. rewrite <- (map_map x_y (Rmult b)). change (map (fun x => x_w x) D) with (map x_w D). unfold k. cbn [kind_scale]. unfold gbs_global_scale.
      destruct (Reqb (sumR (map x_w D)) 0); auto. cbn [option_map]. rewrite scl_mul_l, scl_sum. f_equal. unfold Rdiv. ring. }
    rewrite E. destruct (kind_scale k (map x_y D) (map x_w D)) as [sc|]; cbn [option_map]; [|reflexivity].
    apply (fit_unit gm bppf erfinv bad al prior gs cfg rate D b HB A W LOG MF MF' SM r1 r2 s t N1 N2 NB NP W1 W2 NY). }
  split; auto. intros m m' X E E'. rewrite E, E' in M. cbn in M. inversion M; subst. apply predict_unit.
  rewrite whole_is_from in E. destruct (kind_scale _ _ _); [|discriminate]. eapply from_ext; eauto.
Qed.
