(** Where the smoothers do not look at the uncertainties of the bin estimates,
    weights act as multiplicities for all estimators whose estimates are ratios
    of sums that are linear in the weights. *)
From Coq Require Import ZArith QArith List Bool Reals Lra Lia Permutation.
From Verif.Model Require Import Num LexBins Train Predict Link Estimators Gbs WholeFit BinSmoothers.
From Verif.Spec Require Import DataSpec UncertaintySpec.
From Verif.Proofs Require Import LinkFacts NumFacts FnumOrder LexFacts PredictFacts Simulation ChainFacts OrderFacts TrainFacts.
Import ListNotations.
Local Open Scope R_scope.

Definition value_of (e : option (R * R)) : option R := option_map fst e.
Lemma estimate_value_of bad l l' : map value_of l = map value_of l' -> map (estimate_value bad) l = map (estimate_value bad) l'.
Proof.
  intro E. assert (X : forall m, map (estimate_value bad) m = map (fun v => match v with Some x => x | None => bad end) (map value_of m)).
  { intro m. rewrite map_map. apply map_ext. intros [[a b]|]; reflexivity. }
  rewrite !X, E. auto.
Qed.

Lemma map_map2 {A B C T} (f : C -> T) (g : A -> B -> C) : forall l m, map f (map2 g l m) = map2 (fun a b => f (g a b)) l m.
Proof. induction l as [|a l IH]; intros [|b m]; cbn; auto. f_equal; auto. Qed.
Lemma map2_value : forall (l : list (option R)) m m', map value_of m = map value_of m' ->
  map value_of (map2 (fun v r => match v with Some _ => r | None => None end) l m) =
  map value_of (map2 (fun v r => match v with Some _ => r | None => None end) l m').
Proof.
  induction l as [|a l IH]; intros [|b m] [|b' m'] E; cbn in E; try discriminate; auto. injection E as E1 E2.
  cbn [map2 map]. rewrite (IH m m' E2). f_equal. destruct a; auto.
Qed.

(** The quantity under the square root of the GBS estimator is never negative. *)
Lemma gbs_nonneg {W} (L : W -> nat) (n d : W -> R) k rs A B :
  0 <= A ^ 2 * bin_total (map L rs) (map (fun s => n s * n s) rs) k
       - 2 * B * A * bin_total (map L rs) (map (fun s => n s * d s) rs) k
       + B ^ 2 * bin_total (map L rs) (map (fun s => d s * d s) rs) k.
Proof.
  rewrite !bin_total_map. induction rs as [|s rs IH]; cbn [map sumR]; [lra|].
  destruct (Nat.eqb (L s) k); [|lra]. pose proof (pow2_ge_0 (A * n s - B * d s)). nra.
Qed.

Section Same.
Variable D D' : list sample.
Hypothesis Hin : forall i r, In r (map (fun s => x_bins s i) D) <-> In r (map (fun s => x_bins s i) D').
Hypothesis Hm : forall h : sample -> R, blind h -> sumR (map (fun s => x_w s * h s) D) = sumR (map (fun s => x_w s * h s) D').
Variable gs : list group.
Hypothesis dims : forall s i g, In s D -> nth_error gs i = Some g -> length (x_bins s i) = g_dim g.
Variable gm : R -> R.
Variable bppf : R -> R -> R -> R.
Variable erfinv : R -> R.

Lemma location_values i (L : list fnum -> nat) n phi : blind phi ->
  map value_of (location_parameters (map (fun s => L (x_bins s i)) D) n (map x_y D) (map x_w D) (map phi D)) =
  map value_of (location_parameters (map (fun s => L (x_bins s i)) D') n (map x_y D') (map x_w D') (map phi D')).
Proof.
  intro Bp. unfold location_parameters. cbv zeta.
  assert (BL : blind (fun s => L (x_bins s i))) by (intros s v; auto).
  assert (V : precalc_variance_y (map (fun s => L (x_bins s i)) D) n (map x_y D) (map x_w D) =
              precalc_variance_y (map (fun s => L (x_bins s i)) D') n (map x_y D') (map x_w D')).
  { unfold precalc_variance_y. apply map_ext. intro k.
    assert (P : variance_prior (map x_y D) (map x_w D) = variance_prior (map x_y D') (map x_w D')).
    { unfold variance_prior. rewrite <- (weighted_mean_same D D' Hm). destruct (weighted_mean _ _) as [m|]; auto.
      rewrite ?map2_rows. cbv zeta.
      assert (X1 : sumR (map (fun s => (x_y s - m) * (x_y s - m) * x_w s) D) = sumR (map (fun s => (x_y s - m) * (x_y s - m) * x_w s) D'))
        by (apply (lin_sum D D' Hm _ (fun s => (x_y s - m) * (x_y s - m))); [intros s v; auto|intro; ring]).
      assert (X2 : sumR (map x_w D) = sumR (map x_w D')) by (apply (lin_sum D D' Hm _ (fun _ => 1)); [intros s v; auto|intro; ring]).
      rewrite X1, X2. auto. }
    rewrite <- P. destruct (variance_prior _ _); auto.
    assert (Wk : bin_total (map (fun s => L (x_bins s i)) D) (map x_w D) k = bin_total (map (fun s => L (x_bins s i)) D') (map x_w D') k).
    { apply (lin_bin D D' Hm _ _ (fun _ => 1)); auto; [intros s v; auto|intro; ring]. }
    assert (Sq : squared_residuals (map (fun s => L (x_bins s i)) D) (map x_y D) (map x_w D) k =
                 squared_residuals (map (fun s => L (x_bins s i)) D') (map x_y D') (map x_w D') k).
    { unfold squared_residuals. rewrite <- (in_bin_same D D' Hin). rewrite ?map2_rows. rewrite <- Wk.
      rewrite <- (lin_bin D D' Hm (fun s => L (x_bins s i)) (fun s => x_w s * x_y s) x_y k) by (auto; intros s v; auto).
      cbv zeta. destruct (_ && _); auto. f_equal.
      set (m := _ / _). apply (lin_bin D D' Hm _ _ (fun s => (x_y s - m) ^ 2)); auto. intros s v. auto. }
    rewrite <- Sq, <- Wk. auto. }
  rewrite <- V. apply map2_value. set (vs := precalc_variance_y _ _ _ _). clearbody vs. unfold calc_factors_generic. rewrite !map_map.
  apply map_ext. intro k. rewrite ?map2_rows.
  assert (E1 : forall (h : R -> R -> R) , bin_total (map (fun s => L (x_bins s i)) D)
     (map (fun s => x_w s / (match nth (L (x_bins s i)) vs None with Some v => v | None => 1 end) * (x_y s - phi s)) D) k =
     bin_total (map (fun s => L (x_bins s i)) D')
     (map (fun s => x_w s / (match nth (L (x_bins s i)) vs None with Some v => v | None => 1 end) * (x_y s - phi s)) D') k).
  { intros _. apply (lin_bin D D' Hm _ _ (fun s => / (match nth (L (x_bins s i)) vs None with Some v => v | None => 1 end) * (x_y s - phi s))); auto.
    - intros s v. rewrite Bp. auto.
    - intro s. unfold Rdiv. ring. }
  assert (E2 : bin_total (map (fun s => L (x_bins s i)) D)
     (map (fun s => x_w s / (match nth (L (x_bins s i)) vs None with Some v => v | None => 1 end)) D) k =
     bin_total (map (fun s => L (x_bins s i)) D')
     (map (fun s => x_w s / (match nth (L (x_bins s i)) vs None with Some v => v | None => 1 end)) D') k).
  { apply (lin_bin D D' Hm _ _ (fun s => / (match nth (L (x_bins s i)) vs None with Some v => v | None => 1 end))); auto. intros s v. auto. }
  rewrite (E1 Rplus), E2. destruct (Reqb _ _); auto.
Qed.

Lemma gbs_values al i (L : list fnum -> nat) n phi : blind phi ->
  map value_of (gbs_parameters al (map (fun s => L (x_bins s i)) D) n (map x_y D) (map x_w D) (map phi D)) =
  map value_of (gbs_parameters al (map (fun s => L (x_bins s i)) D') n (map x_y D') (map x_w D') (map phi D')).
Proof.
  intro Bp. unfold gbs_parameters. cbv zeta. rewrite !map_map. apply map_ext. intro k. rewrite ?map2_rows.
  assert (BL : blind (fun s => L (x_bins s i))) by (intros s v; auto).
  assert (EN : bin_total (map (fun s => L (x_bins s i)) D) (map (fun s => (x_y s - phi s) * x_w s) D) k =
               bin_total (map (fun s => L (x_bins s i)) D') (map (fun s => (x_y s - phi s) * x_w s) D') k).
  { apply (lin_bin D D' Hm _ _ (fun s => x_y s - phi s)); auto; [intros s v; rewrite Bp; auto|intro; ring]. }
  assert (ED : bin_total (map (fun s => L (x_bins s i)) D) (map (fun s => x_w s * (1 + al)) D) k =
               bin_total (map (fun s => L (x_bins s i)) D') (map (fun s => x_w s * (1 + al)) D') k).
  { apply (lin_bin D D' Hm _ _ (fun _ => 1 + al)); auto. intros s v; auto. }
  rewrite <- EN, <- ED. set (N := bin_total _ _ _). set (Dn := bin_total _ (map (fun s => x_w s * (1 + al)) D) _).
  pose proof (gbs_nonneg (fun s => L (x_bins s i)) (fun s => (x_y s - phi s) * x_w s) (fun s => x_w s * (1 + al)) k D (Dn + 1) N) as P1.
  pose proof (gbs_nonneg (fun s => L (x_bins s i)) (fun s => (x_y s - phi s) * x_w s) (fun s => x_w s * (1 + al)) k D' (Dn + 1) N) as P2.
  clearbody N Dn. unfold gbs_bin. cbv zeta. destruct (Reqb (Dn + 1) 0) eqn:Z; auto.
  apply Reqb_false_iff in Z. assert (P4 : 0 < (Dn + 1) ^ 4) by (replace ((Dn + 1) ^ 4) with (((Dn + 1) * (Dn + 1)) * ((Dn + 1) * (Dn + 1))) by ring; assert (0 < (Dn + 1) * (Dn + 1)) by (destruct (Rdichotomy _ _ Z); nra); nra).
  pose proof (pow2_ge_0 N) as PN.
  rewrite !(proj2 (Rltb_false _ 0)); auto.
  - apply Rmult_le_pos; [nra|left; apply Rinv_0_lt_compat; auto].
  - apply Rmult_le_pos; [nra|left; apply Rinv_0_lt_compat; auto].
Qed.

Variable k : kind.
Hypothesis kinds : k <> LocPoissonRegressor.

Lemma estimate_values_same i (L : list fnum -> nat) n phi : blind phi ->
  map value_of (estimates gm bppf erfinv k (map (fun s => L (x_bins s i)) D) n (map x_y D) (map x_w D) (map phi D)) =
  map value_of (estimates gm bppf erfinv k (map (fun s => L (x_bins s i)) D') n (map x_y D') (map x_w D') (map phi D')).
Proof.
  intro Bp. destruct k eqn:K.
  1-3: f_equal; apply (estimates_same D D' Hin Hm); [left; reflexivity|exact Bp].
  - apply location_values; auto.
  - congruence.
  - apply gbs_values; auto.
Qed.

Variable bad : R.
Variable cfg : settings.
Variable rate : nat -> nat -> R.
Hypothesis blind_smoothers : forall g, In g gs -> ignores_uncertainties g.

Lemma group_values_same j g p q : nth_error gs j = Some g -> rp D D' p q ->
  map value_of (group_estimates gm bppf erfinv k (bind_groups D 0 gs) (map x_y D) (map x_w D) j p) =
  map value_of (group_estimates gm bppf erfinv k (bind_groups D' 0 gs) (map x_y D') (map x_w D') j q).
Proof.
  intros G (phi & Bp & P & Q). unfold group_estimates. rewrite !(bind_nth gs 0 j g G). cbn [Nat.add].
  pose proof (bind_twin D D' Hin gs dims j g G) as T. destruct (tw_lex _ _ _ _ _ T) as (L & L1 & L2).
  rewrite L1, L2, P, Q, (twin_finite _ _ _ _ _ T). apply estimate_values_same; auto.
Qed.

Let calc (E : list sample) := fun (i it : nat) p => map (estimate_value bad) (group_estimates gm bppf erfinv k (bind_groups E 0 gs) (map x_y E) (map x_w E) i p).
Let smth (E : list sample) := fun (i it : nat) p => group_smoother gm bppf erfinv bad k gs (bind_groups E 0 gs) (map x_y E) (map x_w E) i p.
Let calb (E : list sample) := kind_calibration k (bind_groups E 0 gs) (map x_w E).

Lemma new_values j g s t it p q : nth_error gs j = Some g -> RS rf j s t -> rp D D' p q ->
  new_factors (calc D) (smth D) (calb D) rate j (bind_group D j g) s it p =
  new_factors (calc D') (smth D') (calb D') rate j (bind_group D' j g) t it q.
Proof.
  intros G Sr P. unfold new_factors. pose proof (bind_twin D D' Hin gs dims j g G) as T. destruct (tw_lex _ _ _ _ _ T) as (L & L1 & L2).
  pose proof (group_values_same j g p q G P) as E.
  unfold calc. rewrite <- (estimate_value_of bad _ _ E). cbv zeta. rewrite <- (twin_finite _ _ _ _ _ T), <- (rs_zero _ _ _ _ Sr). cbn [f_mnl bind_group].
  f_equal.
  assert (C : forall v, calb D j v = calb D' j v).
  { intro v. unfold calb, kind_calibration. destruct k; auto. unfold location_calibration.
    rewrite !(bind_nth gs 0 j g G). cbn [Nat.add]. rewrite L1, L2, <- (twin_finite _ _ _ _ _ T), (weight_sums_same D D' Hm). auto. }
  rewrite C. f_equal. f_equal. apply map_ext. intro b.
  assert (X : forall v c, smth D j it p v c = smth D' j it q v c).
  { intros v c. unfold smth, group_smoother. rewrite G, !(bind_nth gs 0 j g G). cbn [Nat.add].
    rewrite (tw_nbins _ _ _ _ _ T), L1, L2, <- (twin_finite _ _ _ _ _ T), (weight_sums_same D D' Hm).
    apply blind_smoothers; [eapply nth_error_In; eauto|]. rewrite !firstn_length, !map_length. f_equal.
    apply (f_equal (@length _)) in E. rewrite !map_length in E. exact E. }
  rewrite X. auto.
Qed.

Lemma rgl_values : forall hs i, (forall j, nth_error hs j = nth_error gs (i + j)) ->
  RGL (calc D) (calc D') (smth D) (smth D') (calb D) (calb D') rate rate (rp D D') rf i (bind_groups D i hs) (bind_groups D' i hs).
Proof.
  induction hs as [|g hs IH]; intros i H; cbn [bind_groups]; constructor.
  - assert (G : nth_error gs i = Some g) by (pose proof (H 0%nat) as X; rewrite Nat.add_0_r in X; rewrite <- X; auto).
    pose proof (bind_twin D D' Hin gs dims i g G) as T. destruct (tw_lex _ _ _ _ _ T) as (L & L1 & L2).
    constructor; try reflexivity.
    + unfold rf. rewrite (twin_finite _ _ _ _ _ T). auto.
    + intros p q v u (phi & Bp & P & Q) <-. exists (fun s => phi s + nth (L (x_bins s i)) v 0). split; [|split].
      * intros s w. rewrite Bp. auto.
      * change (f_ext _) with false; cbn [add_preds p_factors]. rewrite P, L1, gather_map. unfold vadd. apply map2_rows.
      * change (f_ext _) with false; cbn [add_preds p_factors]. rewrite Q, L2, gather_map. unfold vadd. apply map2_rows.
    + intros p q v u (phi & Bp & P & Q) <-. exists (fun s => phi s - nth (L (x_bins s i)) v 0). split; [|split].
      * intros s w. rewrite Bp. auto.
      * change (f_ext _) with false; cbn [sub_preds p_factors]. rewrite P, L1, gather_map. unfold vsub. apply map2_rows.
      * change (f_ext _) with false; cbn [sub_preds p_factors]. rewrite Q, L2, gather_map. unfold vsub. apply map2_rows.
    + intros s t it p q Sr P. unfold rf. rewrite (new_values i g s t it p q G Sr P). auto.
  - apply IH. intro j. pose proof (H (S j)) as X. cbn in X. rewrite X. f_equal. lia.
Qed.

Variable prior_column : bool.
Lemma train_values fuel scale offset :
  ROO (rp D D') rf (train gm bppf erfinv bad k prior_column gs cfg rate fuel D scale offset)
            (train gm bppf erfinv bad k prior_column gs cfg rate fuel D' scale offset).
Proof.
  unfold train. cbv zeta. apply sim_fit; try (unfold rf; intros; subst; auto; fail).
  - apply (rgl_values gs 0). intro. auto.
  - intros p q (phi & Bp & P & Q). rewrite P, Q. apply (loss_same D D' Hm); auto.
  - unfold rf. intros _ i f g a b u v E1 E2 -> ->. unfold clip_absolute, factor_limits. rewrite E1, E2. auto.
  - unfold rp. cbn [p_factors]. unfold prior_predictions, linked_column. destruct prior_column.
    + exists (fun s => match link_option (kind_link k) (x_prior s) with Some x => x + offset | None => scale end).
      split; [intros s v; auto|]. unfold linked_prior. rewrite !map_map. auto.
    + exists (fun _ => scale). split; [intros s v; auto|]. clear. split; [induction D|induction D']; cbn; auto; f_equal; auto.
Qed.

Theorem fit_values fuel :
  whole_fit gm bppf erfinv bad k prior_column gs cfg rate fuel D = whole_fit gm bppf erfinv bad k prior_column gs cfg rate fuel D'.
Proof.
  unfold whole_fit. rewrite <- (scale_same D D' Hm). destruct (kind_scale _ _ _) as [scale|]; auto.
  cbv zeta. rewrite <- (offset_kind_same D D' Hm).
  pose proof (train_values fuel scale (kind_offset k scale (map x_prior D) (map x_w D))) as R.
  destruct (train _ _ _ _ _ _ _ _ _ _ D _ _) as [[a|e]|], (train _ _ _ _ _ _ _ _ _ _ D' _ _) as [[b|e']|]; cbn in R; try contradiction; auto.
  - rewrite (stores_same D D' Hin gs dims gs 0 (fun _ => eq_refl) _ _ (rt_feats _ _ _ _ R)), (rt_iter _ _ _ _ R), (rt_loss _ _ _ _ R). auto.
  - congruence.
Qed.
End Same.

Theorem weights_without_uncertainties gm bppf erfinv bad k prior gs cfg rate fuel D D' : k <> LocPoissonRegressor ->
  (forall g, In g gs -> ignores_uncertainties g) -> well_formed gs D -> same_content D D' ->
  whole_fit gm bppf erfinv bad k prior gs cfg rate fuel D = whole_fit gm bppf erfinv bad k prior gs cfg rate fuel D'.
Proof.
  intros K S W C. apply fit_values; auto.
  - apply content_rows; auto.
  - intros. apply content_sums; auto.
Qed.
