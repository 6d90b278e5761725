(** Moving the target of the location model moves its predictions. *)
From Coq Require Import ZArith QArith Qround List Bool Reals Lra Lia.
From Verif.Model Require Import Num LexBins Train Predict Link Estimators Gbs WholeFit.
From Verif.Spec Require Import DataSpec.
From Verif.Proofs Require Import LinkFacts Simulation ChainFacts OrderFacts.
Import ListNotations.
Local Open Scope R_scope.

Section Shift.
Variable c : R.
Definition up := map (fun x => x + c).

Lemma map2_up {A} (f : R -> R -> A) (E : forall a b, f (a + c) (b + c) = f a b) x : forall y, map2 f (up x) (up y) = map2 f x y.
Proof. induction x as [|a x IH]; intros [|b y]; cbn; auto. rewrite E. f_equal. apply IH. Qed.
Lemma vadd_up p : forall v, vadd (up p) v = up (vadd p v).
Proof. induction p as [|a p IH]; intros [|b v]; cbn; auto. f_equal; [lra|apply IH]. Qed.
Lemma vsub_up p : forall v, vsub (up p) v = up (vsub p v).
Proof. induction p as [|a p IH]; intros [|b v]; cbn; auto. f_equal; [lra|apply IH]. Qed.

Lemma mean_up y : forall w, length y = length w -> sumR w <> 0 ->
  sumR (map2 Rmult (up y) w) / sumR w = sumR (map2 Rmult y w) / sumR w + c.
Proof.
  intros w L N. assert (E : sumR (map2 Rmult (up y) w) = sumR (map2 Rmult y w) + c * sumR w).
  { clear N. revert w L. induction y as [|a y IH]; intros [|b w] L; cbn in L; try discriminate; cbn; [lra|].
    change (map (fun x => x + c) y) with (up y). rewrite IH; auto. lra. }
  rewrite E. field. auto.
Qed.

Lemma weighted_mean_up y w : length y = length w -> weighted_mean (up y) w = option_map (fun m => m + c) (weighted_mean y w).
Proof.
  intro L. unfold weighted_mean. destruct (Reqb (sumR w) 0) eqn:E; auto. apply Reqb_false_iff in E. cbn. f_equal. apply mean_up; auto.
Qed.

Lemma bin_total_up lex : forall w y k, length lex = length w -> length y = length w ->
  bin_total lex (map2 Rmult w (up y)) k = bin_total lex (map2 Rmult w y) k + c * bin_total lex w k.
Proof.
  induction lex as [|b lex IH]; intros [|v w] [|a y] k L1 L2; cbn in L1, L2; try discriminate; cbn; [lra|].
  change (map (fun x => x + c) y) with (up y). rewrite IH; auto. destruct (Nat.eqb b k); lra.
Qed.

Lemma bin_total_absent lex : forall v k, in_bin lex k = false -> bin_total lex v k = 0.
Proof.
  unfold in_bin. induction lex as [|b lex IH]; intros [|x v] k H; cbn in *; auto.
  apply orb_false_elim in H. destruct H as [H1 H2]. rewrite Nat.eqb_sym, H1, IH; auto. lra.
Qed.

Lemma residuals_up lex y w k : length lex = length w -> length y = length w ->
  squared_residuals lex (up y) w k = squared_residuals lex y w k.
Proof.
  intros L1 L2. unfold squared_residuals. destruct (in_bin lex k) eqn:I.
  - cbn [andb]. destruct (Reqb (bin_total lex w k) 0) eqn:E; auto. apply Reqb_false_iff in E. cbv zeta. f_equal.
    rewrite bin_total_up by auto.
    set (m := bin_total lex (map2 Rmult w y) k / bin_total lex w k).
    replace ((bin_total lex (map2 Rmult w y) k + c * bin_total lex w k) / bin_total lex w k) with (m + c) by (unfold m; field; auto).
    f_equal. clearbody m. clear. revert y. induction w as [|v w IH]; intros [|a y]; cbn; auto. f_equal; [ring|apply IH].
  - cbn [andb]. cbv zeta. rewrite !bin_total_absent by auto. auto.
Qed.

Lemma variance_prior_up y w : length y = length w -> variance_prior (up y) w = variance_prior y w.
Proof.
  intro L. unfold variance_prior. rewrite weighted_mean_up by auto. destruct (weighted_mean y w) as [m|]; cbn; auto.
  assert (E : map2 (fun yi wi => (yi - (m + c)) * (yi - (m + c)) * wi) (up y) w = map2 (fun yi wi => (yi - m) * (yi - m) * wi) y w).
  { clear. revert w. induction y as [|a y IH]; intros [|b w]; cbn; auto. f_equal; [ring|apply IH]. }
  rewrite E. auto.
Qed.

Lemma location_up lex n y w score : length lex = length w -> length y = length w ->
  location_parameters lex n (up y) w (up score) = location_parameters lex n y w score.
Proof.
  intros L1 L2. unfold location_parameters. cbv zeta.
  assert (V : precalc_variance_y lex n (up y) w = precalc_variance_y lex n y w).
  { unfold precalc_variance_y. apply map_ext. intro k. rewrite variance_prior_up, residuals_up by auto. auto. }
  rewrite V, (map2_up Rminus) by (intros; lra). auto.
Qed.

Variable gm : R -> R.
Variable bppf : R -> R -> R -> R.
Variable erfinv : R -> R.
Variable bad : R.
Variable prior_column : bool.
Variable gs : list group.
Variable cfg : settings.
Variable rate : nat -> nat -> R.
Variable D : list sample.
Let D' := map (shift_target c) D.

Lemma bind_up : forall hs i, bind_groups D' i hs = bind_groups D i hs.
Proof.
  induction hs as [|h hs IH]; intro i; cbn; auto. rewrite IH. f_equal. unfold bind_group. f_equal. unfold D'. rewrite map_map. auto.
Qed.
Lemma ys_up : map x_y D' = up (map x_y D).
Proof. unfold D', up. rewrite !map_map. auto. Qed.
Lemma ws_up : map x_w D' = map x_w D.
Proof. unfold D'. rewrite map_map. auto. Qed.
Lemma ps_up : map x_prior D' = map x_prior D.
Proof. unfold D'. rewrite map_map. auto. Qed.

Definition rps (p q : preds) : Prop := p_factors q = up (p_factors p).

Lemma lex_length j g : length (f_lex (bind_group D j g)) = length (map x_w D).
Proof. rewrite (f_lex_map (bind_group D j g) D j eq_refl), !map_length. auto. Qed.

Lemma estimates_up j p q : rps p q ->
  group_estimates gm bppf erfinv LocationRegressor (bind_groups D 0 gs) (map x_y D') (map x_w D') j q =
  group_estimates gm bppf erfinv LocationRegressor (bind_groups D 0 gs) (map x_y D) (map x_w D) j p.
Proof.
  intro P. unfold group_estimates. destruct (nth_error gs j) as [g|] eqn:G.
  - rewrite (bind_nth gs 0 j g G). cbn [Nat.add estimates]. rewrite P, ys_up, ws_up. apply location_up.
    + apply lex_length.
    + rewrite !map_length. auto.
  - assert (E : nth_error (bind_groups D 0 gs) j = None).
    { apply nth_error_None in G. apply nth_error_None.
      assert (L : forall hs i, length (bind_groups D i hs) = length hs) by (induction hs; intro; cbn; auto). rewrite L. auto. }
    rewrite E. auto.
Qed.

Lemma loss_up p q : rps p q -> kind_loss bad LocationRegressor (map x_y D') (map x_w D') (p_factors q) =
  kind_loss bad LocationRegressor (map x_y D) (map x_w D) (p_factors p).
Proof.
  intro P. unfold kind_loss, squared_loss. cbn [kind_link]. rewrite P, ys_up, ws_up, !map_id. rewrite map2_up; auto. intros. ring.
Qed.

Lemma rgl_up : forall hs i,
  RGL (fun i (_ : nat) p => map (estimate_value bad) (group_estimates gm bppf erfinv LocationRegressor (bind_groups D 0 gs) (map x_y D) (map x_w D) i p))
      (fun i (_ : nat) p => map (estimate_value bad) (group_estimates gm bppf erfinv LocationRegressor (bind_groups D 0 gs) (map x_y D') (map x_w D') i p))
      (fun i (_ : nat) p => group_smoother gm bppf erfinv bad LocationRegressor gs (bind_groups D 0 gs) (map x_y D) (map x_w D) i p)
      (fun i (_ : nat) p => group_smoother gm bppf erfinv bad LocationRegressor gs (bind_groups D 0 gs) (map x_y D') (map x_w D') i p)
      (kind_calibration LocationRegressor (bind_groups D 0 gs) (map x_w D)) (kind_calibration LocationRegressor (bind_groups D 0 gs) (map x_w D'))
      rate rate rps (fun _ a b => a = b) i (bind_groups D i hs) (bind_groups D i hs).
Proof.
  induction hs as [|g hs IH]; intros i; cbn [bind_groups]; constructor; auto.
  constructor; auto.
  - intros p q v u P <-. unfold rps in *. change (f_ext _) with false; cbn [add_preds p_factors]. rewrite P. apply vadd_up.
  - intros p q v u P <-. unfold rps in *. change (f_ext _) with false; cbn [sub_preds p_factors]. rewrite P. apply vsub_up.
  - intros s t it p q Sr P. unfold new_factors. rewrite (estimates_up i p q P), <- (rs_zero _ _ _ _ Sr), ws_up. cbv zeta. cbn [fst snd]. split; auto.
    f_equal. f_equal. apply map_ext. intro b.
    assert (X : forall v, group_smoother gm bppf erfinv bad LocationRegressor gs (bind_groups D 0 gs) (map x_y D) (map x_w D) i p v b =
      group_smoother gm bppf erfinv bad LocationRegressor gs (bind_groups D 0 gs) (map x_y D') (map x_w D) i q v b).
    { intro v. unfold group_smoother. pose proof (estimates_up i p q P) as E. rewrite ws_up in E. rewrite E. auto. }
    rewrite X. auto.
Qed.

Lemma train_up fuel scale offset :
  ROO rps (fun _ a b => a = b)
    (train gm bppf erfinv bad LocationRegressor prior_column gs cfg rate fuel D scale offset)
    (train gm bppf erfinv bad LocationRegressor prior_column gs cfg rate fuel D' (scale + c) (offset + c)).
Proof.
  unfold train. cbv zeta. rewrite bind_up. apply sim_fit; try (intros; subst; auto; fail).
  - apply rgl_up.
  - intros p q P. symmetry. apply loss_up; auto.
  - intros _ i f g a b u v E1 E2 -> ->. unfold clip_absolute, factor_limits. rewrite E1, E2. auto.
  - unfold rps. cbn [p_factors]. unfold prior_predictions, linked_column, up. rewrite ps_up. destruct prior_column.
    + rewrite map_map. apply map_ext. intros [v|]; cbn; lra.
    + unfold D'. rewrite map_length. clear. induction D; cbn; auto. f_equal; auto.
Qed.

Theorem location_shift fuel :
  whole_fit gm bppf erfinv bad LocationRegressor prior_column gs cfg rate fuel D' =
  shift_result c (whole_fit gm bppf erfinv bad LocationRegressor prior_column gs cfg rate fuel D).
Proof.
  unfold whole_fit. rewrite ys_up, ws_up, ps_up.
  assert (E : kind_scale LocationRegressor (up (map x_y D)) (map x_w D) = option_map (fun s => s + c) (kind_scale LocationRegressor (map x_y D) (map x_w D))).
  { unfold kind_scale, global_scale. rewrite weighted_mean_up by (rewrite !map_length; auto). destruct (weighted_mean _ _); cbn; auto. f_equal. lra. }
  rewrite E. clear E. destruct (kind_scale LocationRegressor (map x_y D) (map x_w D)) as [scale|]; cbn [option_map]; auto. cbv zeta. cbn [kind_offset].
  set (off := prior_offset (kind_link LocationRegressor) scale (map x_prior D) (map x_w D)).
  assert (O' : prior_offset (kind_link LocationRegressor) (scale + c) (map x_prior D) (map x_w D) = off + c).
  { unfold off, prior_offset. destruct (link_option _ _); lra. }
  rewrite O'. pose proof (train_up fuel scale off) as R.
  destruct (train _ _ _ _ _ _ _ _ _ _ D _ _) as [[a|e]|], (train _ _ _ _ _ _ _ _ _ _ D' _ _) as [[b|e']|]; cbn in R; try contradiction; auto.
  - cbn [shift_result o_scale o_offset o_groups o_iterations o_loss]. rewrite bind_up.
    rewrite (rt_iter _ _ _ _ R), (rt_loss _ _ _ _ R).
    assert (St : forall i sl tl, RSL (fun _ a b => a = b) i sl tl -> forall fl, map2 store fl tl = map2 store fl sl).
    { intros i sl tl H. induction H; intros [|f fl]; cbn; auto. f_equal; auto.
      assert (A : s_agg s = s_agg t). { pose proof (rs_agg _ _ _ _ H) as A. unfold RA in A. destruct (s_agg s), (s_agg t); try contradiction; congruence. }
      unfold store. rewrite A. auto. }
    rewrite (St 0%nat _ _ (rt_feats _ _ _ _ R)). auto.
  - rewrite R. auto.
Qed.

Lemma predict_from_up X : forall ms i p q, (forall m, In m ms -> m_ext m = false) -> rps p q ->
  rps (predict_from i ms p X) (predict_from i ms q X).
Proof.
  induction ms as [|m ms IH]; intros i p q H P; cbn; auto. apply IH; [intros; apply H; right; auto|].
  rewrite (H m (or_introl eq_refl)). unfold rps in *. cbn [add_preds p_factors]. rewrite P. apply vadd_up.
Qed.

Lemma predict_shift m m' X : shift_result c (Trained m) = Trained m' -> (forall g, In g (o_groups m) -> m_ext g = false) ->
  whole_predict LocationRegressor prior_column m' X = map (fun v => v + c) (whole_predict LocationRegressor prior_column m X).
Proof.
  intros E H. cbn in E. inversion E; subst; clear E. unfold whole_predict, cb_predict. cbn [o_scale o_offset o_groups kind_link unlink_func].
  rewrite map_map. rewrite !map_id. apply predict_from_up; auto.
  unfold rps. cbn [p_factors]. unfold prior_predictions, linked_column, up. destruct prior_column.
  - rewrite map_map. apply map_ext. intros [v|]; cbn; lra.
  - assert (Y : forall a n, repeat (a + c) n = map (fun x => x + c) (repeat a n)) by (induction n; cbn; auto; f_equal; auto).
    apply Y.
Qed.

Lemma fit_ext k fuel m : whole_fit gm bppf erfinv bad k prior_column gs cfg rate fuel D = Trained m ->
  forall g, In g (o_groups m) -> m_ext g = false.
Proof.
  unfold whole_fit. destruct (kind_scale _ _ _); [|discriminate]. cbv zeta.
  destruct (train _ _ _ _ _ _ _ _ _ _ _ _ _) as [[st|e]|]; try discriminate. intro E. inversion E; subst; clear E. cbn [o_groups].
  generalize (t_feats st). assert (X : forall hs i sl g, In g (map2 store (bind_groups D i hs) sl) -> m_ext g = false).
  { induction hs as [|h hs IH]; intros i [|s sl] g H; cbn in H; try contradiction. destruct H as [<-|H]; auto. eapply IH; eauto. }
  intros l g. apply X.
Qed.
End Shift.

Theorem location_equivariant c gm bppf erfinv bad prior gs cfg rate fuel D :
  whole_fit gm bppf erfinv bad LocationRegressor prior gs cfg rate fuel (map (shift_target c) D) =
    shift_result c (whole_fit gm bppf erfinv bad LocationRegressor prior gs cfg rate fuel D) /\
  forall m m' X, whole_fit gm bppf erfinv bad LocationRegressor prior gs cfg rate fuel D = Trained m ->
    whole_fit gm bppf erfinv bad LocationRegressor prior gs cfg rate fuel (map (shift_target c) D) = Trained m' ->
    whole_predict LocationRegressor prior m' X = map (fun v => v + c) (whole_predict LocationRegressor prior m X).
Proof.
  split; [apply location_shift|]. intros m m' X E E'. apply predict_shift.
  - rewrite <- E, <- E'. symmetry. apply location_shift.
  - eapply fit_ext; eauto.
Qed.
