(** Whole trainings of the price model. *)
From Coq Require Import ZArith QArith Qreals List Bool Reals Lra Lia Permutation FunctionalExtensionality.
From Verif.Model Require Import Num LexBins Train Predict Link Estimators WholeFit Price BinFit PriceFit.
From Verif.Spec Require Import TrainSpec PredictSpec DataSpec PriceFitSpec.
From Verif.Proofs Require Import LexFacts TrainFacts PredictFacts NeutralFacts Simulation OrderFacts BinOrderFacts BinFitFacts.
Import ListNotations.
Local Open Scope R_scope.

(** ** The exponents do not depend on the order of the rows *)
Lemma total_any {A} (L : A -> nat) (g : A -> R) k D D' : Permutation D D' ->
  bin_total (map L D) (map g D) k = bin_total (map L D') (map g D') k.
Proof. intro P. rewrite !bin_total_map. apply sum_perm', P. Qed.
Lemma totals_any {A} (L : A -> nat) (g : A -> R) n D D' : Permutation D D' ->
  bincounts (map L D) (map g D) n = bincounts (map L D') (map g D') n.
Proof. intro P. unfold bincounts. apply map_ext. intro k. now apply total_any. Qed.
Lemma step_any rows rows' var_l : Permutation rows rows' -> newton_step rows var_l = newton_step rows' var_l.
Proof.
  intro P. apply functional_extensionality. intro l. unfold newton_step. f_equal.
  apply functional_extensionality. intro b. apply functional_extensionality. intro x. unfold bin_step.
  assert (E : empty_bin rows b = empty_bin rows' b).
  { unfold empty_bin, lex. f_equal. apply existsb_same. intro v. rewrite !in_map_iff.
    split; intros (r & <- & I); exists r; split; auto; [eapply Permutation_in|eapply Permutation_in; [apply Permutation_sym|]]; eauto. }
  assert (C : forall b, bin_count rows b = bin_count rows' b) by (intro; unfold bin_count, lex; now apply total_any).
  assert (J : jacobian rows var_l b x = jacobian rows' var_l b x).
  { unfold jacobian, lex. transitivity (bin_total (map pr_bin rows) (map (fun r => jac_data r x + jac_prior rows' var_l r x) rows) b); [|now apply total_any].
    f_equal. apply map_ext. intro r. unfold jac_prior. rewrite C. auto. }
  assert (H : hessian rows var_l b x = hessian rows' var_l b x).
  { unfold hessian, lex. transitivity (bin_total (map pr_bin rows) (map (fun r => hess_data r x + hess_prior rows' var_l r x) rows) b); [|now apply total_any].
    f_equal. apply map_ext. intro r. unfold hess_prior. rewrite C. auto. }
  rewrite E, J, H. auto.
Qed.
Lemma parameters_any gm rows rows' var_l w : Permutation rows rows' ->
  exponent_parameters gm rows var_l w = exponent_parameters gm rows' var_l w.
Proof.
  intro P. unfold exponent_parameters, exponent_bins, newton_gradient. rewrite (step_any rows rows' var_l P). auto.
Qed.

(** ** Rows and predictions *)
Definition link_of (phi psi : price_sample -> R) (r : price_sample) : link_row :=
  {| lr_factors := phi r; lr_prior_exponents := q_exponent r; lr_exponents := psi r; lr_base := external_base (q_price r) |}.
Lemma link_rows_map phi psi D p : p_factors p = map phi D -> p_exponents p = map psi D -> link_rows D p = map (link_of phi psi) D.
Proof. intros E1 E2. unfold link_rows. rewrite E1, E2. clear. induction D; cbn; f_equal; auto. Qed.
Lemma scores_map phi psi D p : p_factors p = map phi D -> p_exponents p = map psi D ->
  price_scores D p = map (fun r => predict_link (link_of phi psi r)) D.
Proof. intros E1 E2. unfold price_scores. rewrite (link_rows_map phi psi D p E1 E2), map_map. auto. Qed.
Lemma exponent_rows_map a c (L : price_sample -> nat) phi psi D p : p_factors p = map phi D -> p_exponents p = map psi D ->
  exponent_rows a c (map L D) D p = map (fun r => exponent_row a c r (link_of phi psi r) (L r)) D.
Proof.
  intros E1 E2. unfold exponent_rows. rewrite (link_rows_map phi psi D p E1 E2). clear. induction D; cbn; f_equal; auto.
Qed.
Lemma map2_maps {A B C E} (f : B -> C -> E) (g : A -> B) (h : A -> C) l : map2 f (map g l) (map h l) = map (fun s => f (g s) (h s)) l.
Proof. induction l; cbn; f_equal; auto. Qed.

Definition price_bins (r : price_sample) (i : nat) : list fnum := x_bins (q_row r) i.
Lemma price_finite D i g : f_finite (bind_price_group D i g) = f_finite (bind_row_group price_sample price_bins D i (fst g)).
Proof. reflexivity. Qed.
Lemma price_nbins D i g : f_nbins (bind_price_group D i g) = f_nbins (bind_row_group price_sample price_bins D i (fst g)).
Proof. reflexivity. Qed.
Lemma price_lex D i g : f_lex (bind_price_group D i g) = f_lex (bind_row_group price_sample price_bins D i (fst g)).
Proof. reflexivity. Qed.
Lemma price_bind_nth E : forall hs i j g, nth_error hs j = Some g ->
  nth_error (bind_price_groups E i hs) j = Some (bind_price_group E (i + j) g).
Proof.
  induction hs as [|h hs IH]; intros i [|j] g H; cbn in H; try discriminate; cbn.
  - inversion H; subst. rewrite Nat.add_0_r. auto.
  - rewrite (IH (S i) j g H). f_equal. f_equal. lia.
Qed.

Section Order.
Variables (gm : R -> R) (a c var_l : R) (prior : bool) (gs : list price_group) (cfg : settings) (rate : nat -> nat -> R).
Variable D D' : list price_sample.
Hypothesis same : Permutation D D'.
Hypothesis dims : well_formed (map fst gs) (map q_row D).

Lemma price_dims : forall r i g, In r D -> nth_error (map fst gs) i = Some g -> length (price_bins r i) = g_dim g.
Proof. intros r i g I G. apply (dims (q_row r) i g); auto. apply in_map, I. Qed.
Definition prp (p q : preds) : Prop := exists phi psi : price_sample -> R,
  p_factors p = map phi D /\ p_factors q = map phi D' /\ p_exponents p = map psi D /\ p_exponents q = map psi D'.
Lemma price_pair i g : nth_error gs i = Some g -> f_nbins (bind_price_group D i g) = f_nbins (bind_price_group D' i g) /\
  exists L : price_sample -> nat, f_lex (bind_price_group D i g) = map L D /\ f_lex (bind_price_group D' i g) = map L D'.
Proof.
  intro G. assert (G' : nth_error (map fst gs) i = Some (fst g)) by (apply map_nth_error; exact G).
  assert (In_same : forall i r, In r (map (fun s => price_bins s i) D) <-> In r (map (fun s => price_bins s i) D')).
  { intros i' r. split; apply Permutation_in, Permutation_map; [|apply Permutation_sym]; exact same. }
  destruct (bind_pair price_sample price_bins (map fst gs) D D' In_same price_dims i (fst g) G') as [N (L & L1 & L2)].
  rewrite !price_nbins, !price_lex. split; [exact N|]. exists (fun s => L (price_bins s i)). auto.
Qed.
Lemma price_pair_finite i g : nth_error gs i = Some g -> f_finite (bind_price_group D i g) = f_finite (bind_price_group D' i g).
Proof. intro G. unfold f_finite. destruct (price_pair i g G) as [-> _]. auto. Qed.

Let feats (E : list price_sample) := bind_price_groups E 0 gs.
Lemma price_estimates_same j g p q : nth_error gs j = Some g -> prp p q ->
  price_estimates gm a c var_l (feats D) D j p = price_estimates gm a c var_l (feats D') D' j q.
Proof.
  intros G (phi & psi & P1 & P2 & P3 & P4). unfold price_estimates, feats. rewrite !(price_bind_nth _ gs 0 j g G). cbn [Nat.add].
  destruct (price_pair j g G) as (_ & L & L1 & L2). rewrite <- (price_pair_finite j g G), L1, L2. cbv zeta.
  change (f_ext (bind_price_group D j g)) with (snd g). change (f_ext (bind_price_group D' j g)) with (snd g).
  destruct (snd g).
  - rewrite (exponent_rows_map a c L phi psi D p P1 P3), (exponent_rows_map a c L phi psi D' q P2 P4).
    rewrite (totals_any L _ _ D D' same).
    rewrite (parameters_any gm _ _ var_l _ (Permutation_map (fun r => exponent_row a c r (link_of phi psi r) (L r)) same)). auto.
  - unfold nbinom_parameters. cbv zeta. rewrite (scores_map phi psi D p P1 P3), (scores_map phi psi D' q P2 P4), !map_map.
    rewrite !map2_maps. rewrite !(totals_any L _ _ D D' same). auto.
Qed.
Let calc (E : list price_sample) := fun (i it : nat) p => fst (price_estimates gm a c var_l (feats E) E i p).
Let smth (E : list price_sample) := fun (i it : nat) p => price_smoothing gm a c var_l gs (feats E) E i p.
Let calb := fun (_ : nat) (f : list R) => f.
Lemma price_new_same j g s t it p q : nth_error gs j = Some g -> RS rf j s t -> prp p q ->
  new_factors (calc D) (smth D) calb rate j (bind_price_group D j g) s it p =
  new_factors (calc D') (smth D') calb rate j (bind_price_group D' j g) t it q.
Proof.
  intros G Sr P. unfold new_factors. destruct (price_pair j g G) as (N & L & L1 & L2).
  pose proof (price_estimates_same j g p q G P) as E.
  unfold calc. rewrite <- E. cbv zeta. rewrite <- (price_pair_finite j g G), <- (rs_zero _ _ _ _ Sr). cbn [f_mnl bind_price_group].
  assert (X : smth D j it p = smth D' j it q).
  { unfold smth, price_smoothing. rewrite G. unfold feats. rewrite !(price_bind_nth _ gs 0 j g G). cbn [Nat.add]. fold (feats D) (feats D').
    change (f_ext (bind_price_group D j g)) with (snd g). change (f_ext (bind_price_group D' j g)) with (snd g).
    rewrite <- E, N, L1, L2, <- (price_pair_finite j g G), (totals_any L _ _ D D' same). auto. }
  rewrite X. auto.
Qed.
Lemma price_rgl : forall hs i, (forall j, nth_error hs j = nth_error gs (i + j)) ->
  RGL (calc D) (calc D') (smth D) (smth D') calb calb rate rate prp rf i (bind_price_groups D i hs) (bind_price_groups D' i hs).
Proof.
  induction hs as [|g hs IH]; intros i H; cbn [bind_price_groups]; constructor.
  - assert (G : nth_error gs i = Some g) by (pose proof (H 0%nat) as X; rewrite Nat.add_0_r in X; rewrite <- X; auto).
    destruct (price_pair i g G) as (N & L & L1 & L2).
    constructor; try reflexivity.
    + unfold rf. rewrite (price_pair_finite i g G). auto.
    + intros p q v u (phi & psi & P1 & P2 & P3 & P4) <-.
      change (f_ext (bind_price_group D i g)) with (snd g). change (f_ext (bind_price_group D' i g)) with (snd g). unfold prp, add_preds. destruct (snd g); cbn [p_factors p_exponents].
      * exists phi, (fun s => psi s + nth (L s) v 0). rewrite P1, P2, P3, P4, L1, L2. unfold vadd, gather. rewrite !map_map, !map2_maps. auto.
      * exists (fun s => phi s + nth (L s) v 0), psi. rewrite P1, P2, P3, P4, L1, L2. unfold vadd, gather. rewrite !map_map, !map2_maps. auto.
    + intros p q v u (phi & psi & P1 & P2 & P3 & P4) <-.
      change (f_ext (bind_price_group D i g)) with (snd g). change (f_ext (bind_price_group D' i g)) with (snd g). unfold prp, sub_preds. destruct (snd g); cbn [p_factors p_exponents].
      * exists phi, (fun s => psi s - nth (L s) v 0). rewrite P1, P2, P3, P4, L1, L2. unfold vsub, gather. rewrite !map_map, !map2_maps. auto.
      * exists (fun s => phi s - nth (L s) v 0), psi. rewrite P1, P2, P3, P4, L1, L2. unfold vsub, gather. rewrite !map_map, !map2_maps. auto.
    + intros s t it p q Sr P. unfold rf. rewrite (price_new_same i g s t it p q G Sr P). auto.
  - apply IH. intro j. pose proof (H (S j)) as X. cbn in X. rewrite X. f_equal. lia.
Qed.
Lemma price_loss_same p q : prp p q -> price_loss D p = price_loss D' q.
Proof.
  intros (phi & psi & P1 & P2 & P3 & P4). unfold price_loss, squared_loss.
  rewrite (scores_map phi psi D p P1 P3), (scores_map phi psi D' q P2 P4), !map_map, !map2_maps, !(sum_perm' _ D D' same). auto.
Qed.
Definition price_start (scale offset : R) (r : price_sample) : R :=
  if prior then match link_option Log (x_prior (q_row r)) with Some x => x + offset | None => scale end else scale.
Lemma price_priors scale offset E : prior_predictions scale offset (price_column prior E) (length E) = map (price_start scale offset) E.
Proof.
  unfold prior_predictions, price_column, price_start, linked_prior. destruct prior.
  - rewrite !map_map. auto.
  - induction E; cbn; f_equal; auto.
Qed.
Lemma price_train_same fuel scale offset : ROO prp rf (price_train gm a c var_l prior gs cfg rate fuel D scale offset)
                                                      (price_train gm a c var_l prior gs cfg rate fuel D' scale offset).
Proof.
  unfold price_train. cbv zeta. apply sim_fit; try (unfold rf; intros; subst; auto; fail).
  - apply (price_rgl gs 0). intro. auto.
  - apply price_loss_same.
  - unfold rf. intros _ i f g u v x y E1 E2 -> ->. unfold clip_absolute, factor_limits. rewrite E1, E2. auto.
  - exists (price_start scale offset), (fun _ => 0). cbn [p_factors p_exponents]. rewrite !price_priors. unfold zeros.
    assert (Z : forall E : list price_sample, repeat 0 (length E) = map (fun _ => 0) E) by (induction E; cbn; f_equal; auto).
    rewrite !Z. auto.
Qed.
Lemma price_stores : forall hs i, (forall j, nth_error hs j = nth_error gs (i + j)) -> forall sl tl, RSL rf i sl tl ->
  map2 store (bind_price_groups D i hs) sl = map2 store (bind_price_groups D' i hs) tl.
Proof.
  induction hs as [|g hs IH]; intros i H sl tl R; cbn [bind_price_groups map2]; auto. inversion R; subst; auto.
  f_equal.
  - assert (G : nth_error gs i = Some g) by (pose proof (H 0%nat) as X; rewrite Nat.add_0_r in X; rewrite <- X; auto).
    destruct (price_pair i g G) as (N & _).
    assert (A : s_agg s = s_agg t). { pose proof (rs_agg _ _ _ _ H0) as A. unfold RA, rf in A. destruct (s_agg s), (s_agg t); try contradiction; congruence. }
    unfold store. rewrite A, (price_pair_finite i g G), N. auto.
  - apply IH; auto. intro j. pose proof (H (S j)) as X. cbn in X. rewrite X. f_equal. lia.
Qed.
Theorem price_order fuel : price_fit gm a c var_l prior gs cfg rate fuel D = price_fit gm a c var_l prior gs cfg rate fuel D'.
Proof.
  unfold price_fit, global_scale. cbv zeta.
  rewrite <- (mean_any (fun r => x_y (q_row r)) (fun r => x_w (q_row r)) D D' same).
  destruct (weighted_mean _ _) as [m|]; auto. destruct (link_func Log _) as [scale|]; auto.
  assert (O1 : prior_offset Log scale (map (fun r => x_prior (q_row r)) D) (map (fun r => x_w (q_row r)) D) =
               prior_offset Log scale (map (fun r => x_prior (q_row r)) D') (map (fun r => x_w (q_row r)) D')).
  { pose proof (prior_offset_any Log scale (map q_row D) (map q_row D') (Permutation_map _ same)) as E. rewrite !map_map in E. exact E. }
  rewrite <- O1.
  pose proof (price_train_same fuel scale (prior_offset Log scale (map (fun r => x_prior (q_row r)) D) (map (fun r => x_w (q_row r)) D))) as R.
  destruct (price_train _ _ _ _ _ _ _ _ _ D _ _) as [[x|e]|], (price_train _ _ _ _ _ _ _ _ _ D' _ _) as [[y|e']|]; cbn in R; try contradiction; auto.
  - rewrite (price_stores gs 0 (fun _ => eq_refl) _ _ (rt_feats _ _ _ _ R)), (rt_iter _ _ _ _ R), (rt_loss _ _ _ _ R). auto.
  - congruence.
Qed.
End Order.

(** ** Predictions *)
Lemma link_rows_nth P : forall X j r, nth_error X j = Some r -> length (p_factors P) = length X -> length (p_exponents P) = length X ->
  nth_error (link_rows X P) j = Some {| lr_factors := nth j (p_factors P) 0; lr_prior_exponents := q_exponent r;
      lr_exponents := nth j (p_exponents P) 0; lr_base := external_base (q_price r) |}.
Proof.
  unfold link_rows. generalize (p_factors P) as a. generalize (p_exponents P) as b. clear P. intros b a X j. revert b a X.
  induction j as [|j IH]; intros b a [|x X] r J LF LE; cbn in J; try discriminate; destruct a, b; cbn in LF, LE; try discriminate.
  - injection J as ->. reflexivity.
  - cbn [combine map2 nth_error nth]. apply IH; auto.
Qed.
Lemma predict_plen N : forall ms i p X, plen N p -> length X = N -> plen N (predict_from i ms p X).
Proof.
  induction ms as [|m ms IH]; intros i p X Hp HX; cbn [predict_from]; auto.
  apply IH; auto. apply plen_add; auto. rewrite predict_factors_rowpred, !map_length. auto.
Qed.
Theorem price_rows prior t X :
  length (price_fit_predict prior t X) = length X /\
  forall j r, nth_error X j = Some r ->
    nth_error (price_fit_predict prior t X) j =
    Some (exp (prior_of (o_scale t) (o_offset t) (price_column prior X) j + group_sum alone false 0 (o_groups t) (x_bins (q_row r)) +
               q_exponent r * exp (group_sum alone true 0 (o_groups t) (x_bins (q_row r))) * external_base (q_price r))).
Proof.
  unfold price_fit_predict.
  set (pr := {| p_factors := _; p_exponents := _ |}).
  set (B := map (fun r => x_bins (q_row r)) X).
  assert (LB : length B = length X) by apply map_length.
  assert (L1 : length (p_factors pr) = length B).
  { cbn. unfold prior_predictions, price_column. destruct prior; [unfold linked_prior; rewrite !map_length; auto|rewrite repeat_length; auto]. }
  assert (L2 : length (p_exponents pr) = length B) by (cbn; unfold zeros; rewrite repeat_length; auto).
  set (P := predict_extended (o_groups t) pr B).
  assert (LP : plen (length B) P).
  { unfold P, predict_extended. apply predict_plen; auto. split; auto. }
  destruct LP as [LF LE].
  assert (LR : forall D, length D = length B -> length (link_rows D P) = length D).
  { intros D HD. unfold link_rows. assert (LC : length (combine (p_factors P) (p_exponents P)) = length D) by (rewrite combine_length; lia).
    clear -LC. revert LC. generalize (combine (p_factors P) (p_exponents P)) as l. induction D as [|d D IH]; intros [|x l] E; cbn in *; try discriminate; auto. }
  split; [unfold price_scores; rewrite !map_length; apply LR; auto|].
  intros j r J. assert (Hj : (j < length B)%nat) by (rewrite LB; apply nth_error_Some; congruence).
  pose proof (batch_decomposes false (o_groups t) pr B j L1 L2 Hj) as F. pose proof (batch_decomposes true (o_groups t) pr B j L1 L2 Hj) as G.
  cbn [column] in F, G. fold P in F, G.
  match type of F with context [nth j B ?d] =>
    assert (NB : nth j B d = x_bins (q_row r)) by (apply nth_error_nth; unfold B; apply map_nth_error with (f := fun r => x_bins (q_row r)); exact J);
    pose proof (eq_trans F (f_equal (fun x => nth j (p_factors pr) 0 + group_sum alone false 0 (o_groups t) x) NB)) as F';
    pose proof (eq_trans G (f_equal (fun x => nth j (p_exponents pr) 0 + group_sum alone true 0 (o_groups t) x) NB)) as G' end.
  clear F G. rename F' into F. rename G' into G. cbv beta in F, G.
  assert (N : nth_error (link_rows X P) j = Some {| lr_factors := nth j (p_factors P) 0; lr_prior_exponents := q_exponent r;
      lr_exponents := nth j (p_exponents P) 0; lr_base := external_base (q_price r) |}).
  { apply link_rows_nth; [exact J|rewrite LF; exact LB|rewrite LE; exact LB]. }
  unfold price_scores. rewrite !nth_error_map, N. cbn [option_map]. do 2 f_equal. unfold predict_link, exponents. cbn [lr_factors lr_prior_exponents lr_exponents lr_base].
  rewrite F, G. f_equal.
  - f_equal. unfold pr. cbn [p_factors]. rewrite price_priors. unfold prior_of.
    rewrite (nth_error_nth _ _ 0 (map_nth_error (price_start prior (o_scale t) (o_offset t)) j X J)). unfold price_start, price_column, linked_prior.
    destruct prior; auto. rewrite map_map. rewrite (nth_error_nth _ _ None (map_nth_error (fun r => link_option Log (x_prior (q_row r))) j X J)). auto.
  - unfold pr. cbn [p_exponents]. unfold zeros. rewrite nth_repeat, Rplus_0_l. auto.
Qed.
Lemma price_positive prior t X : length (price_fit_predict prior t X) = length X /\ forall v, In v (price_fit_predict prior t X) -> 0 < v.
Proof.
  split; [apply price_rows|]. intros v I. unfold price_fit_predict in I. apply in_map_iff in I. destruct I as (s & <- & _). apply exp_pos.
Qed.

(** ** Changing the price of one row *)
Lemma column_any prior before after r x : price_column prior (before ++ with_price r x :: after) = price_column prior (before ++ r :: after).
Proof. unfold price_column. destruct prior; auto. rewrite !map_app. reflexivity. Qed.
Lemma nth_middle' {A} (before after : list A) r : nth_error (before ++ r :: after) (length before) = Some r.
Proof. rewrite nth_error_app2, Nat.sub_diag; auto. Qed.
Lemma price_one_row prior t before after r x y : 
  let P x := price_fit_predict prior t (before ++ with_price r x :: after) in
  (forall j, j <> length before -> nth_error (P x) j = nth_error (P y) j) /\
  exists b k, 0 < k /\ nth_error (P x) (length before) = Some (exp (b + q_exponent r * k * external_base x)) /\
            nth_error (P y) (length before) = Some (exp (b + q_exponent r * k * external_base y)).
Proof.
  intro P. pose proof (price_rows prior t (before ++ with_price r x :: after)) as [Lx Rx].
  pose proof (price_rows prior t (before ++ with_price r y :: after)) as [Ly Ry]. fold (P x) in Lx, Rx. fold (P y) in Ly, Ry.
  rewrite column_any in Rx, Ry. split.
  - intros j Hj. destruct (nth_error (before ++ with_price r x :: after) j) as [u|] eqn:U.
    + rewrite (Rx j u U). symmetry. apply Ry. rewrite <- U. destruct (Nat.lt_ge_cases j (length before)) as [Lt|Ge].
      * rewrite !nth_error_app1; auto.
      * rewrite !nth_error_app2 by auto. destruct (j - length before)%nat as [|n] eqn:E; [lia|reflexivity].
    + apply nth_error_None in U. rewrite !(proj2 (nth_error_None _ _)); auto; [rewrite Ly|rewrite Lx; auto]. rewrite app_length in *. exact U.
  - exists (prior_of (o_scale t) (o_offset t) (price_column prior (before ++ r :: after)) (length before) + group_sum alone false 0 (o_groups t) (x_bins (q_row r))),
      (exp (group_sum alone true 0 (o_groups t) (x_bins (q_row r)))).
    split; [apply exp_pos|]. split; [apply (Rx _ _ (nth_middle' _ _ _))|apply (Ry _ _ (nth_middle' _ _ _))].
Qed.
Lemma price_falls prior t before after r p q : q_exponent r < 0 -> (p < q)%Q ->
  exists u v, nth_error (price_fit_predict prior t (before ++ with_price r (Fin p) :: after)) (length before) = Some u /\
              nth_error (price_fit_predict prior t (before ++ with_price r (Fin q) :: after)) (length before) = Some v /\ v < u.
Proof.
  intros E H. destruct (price_one_row prior t before after r (Fin p) (Fin q)) as [_ (b & k & K & P1 & P2)].
  do 2 eexists. split; [exact P1|]. split; [exact P2|]. apply exp_increasing. apply Qlt_Rlt in H. cbn [external_base].
  assert (M : q_exponent r * k < 0) by nra. nra.
Qed.
Lemma price_rises prior t before after r p q : 0 < q_exponent r -> (p < q)%Q ->
  exists u v, nth_error (price_fit_predict prior t (before ++ with_price r (Fin p) :: after)) (length before) = Some u /\
              nth_error (price_fit_predict prior t (before ++ with_price r (Fin q) :: after)) (length before) = Some v /\ u < v.
Proof.
  intros E H. destruct (price_one_row prior t before after r (Fin p) (Fin q)) as [_ (b & k & K & P1 & P2)].
  do 2 eexists. split; [exact P1|]. split; [exact P2|]. apply exp_increasing. apply Qlt_Rlt in H. cbn [external_base].
  assert (M : 0 < q_exponent r * k) by nra. nra.
Qed.
Lemma price_others prior t before after r x y j : j <> length before ->
  nth_error (price_fit_predict prior t (before ++ with_price r x :: after)) j = nth_error (price_fit_predict prior t (before ++ with_price r y :: after)) j.
Proof. apply (price_one_row prior t before after r x y). Qed.

(** ** Prices that do not vary *)
Lemma neutral_base r : neutral_price r -> external_base (q_price r) = 0.
Proof.
  unfold neutral_price, external_base. destruct (q_price r) as [q| | |]; auto. intro E. rewrite (Qeq_eqR _ _ E). unfold Q2R. cbn. lra.
Qed.
Lemma neutral_scores D p : Forall neutral_price D -> length (p_factors p) = length D -> length (p_exponents p) = length D ->
  price_scores D p = p_factors p.
Proof.
  intro H. unfold price_scores, link_rows. destruct p as [f e]. cbn [p_factors p_exponents]. revert f e.
  induction H as [|r D Hr HD IH]; intros [|x f] [|y e] L1 L2; cbn in L1, L2; try discriminate; auto.
  cbn [combine map2 map]. rewrite IH by lia. f_equal. unfold predict_link. cbn [fst snd lr_factors lr_base]. rewrite (neutral_base r Hr). lra.
Qed.
Lemma neutral_groups D : forall gs i, Forall (fun g : price_group => snd g = false) gs ->
  bind_price_groups D i gs = bind_groups (map q_row D) i (map fst gs).
Proof.
  induction gs as [|g gs IH]; intros i H; inversion H; subst; cbn; auto. f_equal; auto. unfold bind_price_group, bind_group.
  rewrite map_map. congruence.
Qed.
Lemma values_back bad (f u : list R) : length f = length u ->
  map (estimate_value bad) (map2 (fun f u => Some (f, u)) f u) = f /\ map (estimate_uncertainty bad) (map2 (fun f u => Some (f, u)) f u) = u.
Proof. revert u. induction f as [|x f IH]; intros [|v u] L; cbn in L; try discriminate; auto. destruct (IH u) as [E1 E2]; [lia|]. cbn. rewrite E1, E2. auto. Qed.
Lemma map2_length' {A B C} (f : A -> B -> C) : forall l m, length l = length m -> length (map2 f l m) = length l.
Proof. induction l as [|x l IH]; intros [|y m] L; cbn in *; try discriminate; auto. Qed.
Lemma nbinom_lengths gm a c lex n y w score : length (fst (nbinom_parameters gm a c lex n y w score)) = length (snd (nbinom_parameters gm a c lex n y w score)).
Proof.
  unfold nbinom_parameters, calc_factors_and_uncertainties. cbv zeta. cbn [fst snd]. unfold bincounts.
  rewrite map2_length'; rewrite !map_length; auto.
Qed.
Lemma bind_in D : forall gs i f, In f (bind_groups D i gs) -> length (f_rows f) = length D.
Proof. induction gs as [|g gs IH]; intros i f I; cbn in I; [contradiction|]. destruct I as [<-|I]; [apply map_length|eapply IH; eauto]. Qed.
Lemma bind_ext D : forall gs i f, In f (bind_groups D i gs) -> f_ext f = false.
Proof. induction gs as [|g gs IH]; intros i f I; cbn in I; [contradiction|]. destruct I as [<-|I]; [auto|eapply IH; eauto]. Qed.
Lemma nth_fst : forall (l : list price_group) j, nth_error (map fst l) j = match nth_error l j with Some g => Some (fst g) | None => None end.
Proof. induction l as [|x l IH]; intros [|j]; cbn; auto. Qed.

Section Neutral.
Variables (gm : R -> R) (bp : R -> R -> R -> R) (ei : R -> R) (bad : R) (a c var_l : R) (prior : bool) (gs : list price_group) (cfg : settings) (rate : nat -> nat -> R).
Variable D : list price_sample.
Hypothesis plain : Forall (fun g : price_group => snd g = false) gs.
Hypothesis neutral : Forall neutral_price D.
Let k := NBinomRegressor a c.
Let E := map q_row D.
Let hs := map fst gs.
Let F := bind_groups E 0 hs.
Definition same_preds (p q : preds) : Prop := p = q /\ plen (length D) p.
Lemma neutral_estimates j p : plen (length D) p ->
  fst (price_estimates gm a c var_l F D j p) = map (estimate_value bad) (group_estimates gm bp ei k F (map x_y E) (map x_w E) j p) /\
  snd (price_estimates gm a c var_l F D j p) = map (estimate_uncertainty bad) (group_estimates gm bp ei k F (map x_y E) (map x_w E) j p).
Proof.
  intros [L1 L2]. unfold price_estimates, group_estimates. destruct (nth_error F j) as [f|] eqn:J; [|auto].
  assert (I : In f F) by (eapply nth_error_In; eauto). rewrite (bind_ext _ _ _ _ I). cbv zeta.
  rewrite (neutral_scores D p neutral L1 L2). unfold estimates, k. cbv zeta. unfold E. rewrite !map_map.
  match goal with |- context [nbinom_parameters ?u1 ?u2 ?u3 ?u4 ?u5 ?u6 ?u7 ?u8] =>
    destruct (values_back bad _ _ (nbinom_lengths u1 u2 u3 u4 u5 u6 u7 u8)) as [V1 V2] end.
  rewrite V1, V2. auto.
Qed.
Lemma neutral_smoothing j p : plen (length D) p ->
  price_smoothing gm a c var_l gs F D j p = group_smoother gm bp ei bad k hs F (map x_y E) (map x_w E) j p.
Proof.
  intro L. unfold price_smoothing, group_smoother. apply functional_extensionality. intro v. apply functional_extensionality. intro b.
  unfold hs. rewrite nth_fst. destruct (nth_error gs j) as [g|]; auto. destruct (nth_error F j) as [f|] eqn:J; auto.
  assert (I : In f F) by (eapply nth_error_In; eauto). rewrite (bind_ext _ _ _ _ I).
  destruct (neutral_estimates j p L) as [_ ->]. unfold E. rewrite !map_map. auto.
Qed.
Lemma neutral_column : price_column prior D = linked_column k prior E.
Proof. unfold price_column, linked_column, k, E. rewrite map_map. auto. Qed.
Lemma neutral_train fuel scale offset :
  ROO same_preds rf (price_train gm a c var_l prior gs cfg rate fuel D scale offset) (train gm bp ei bad k prior hs cfg rate fuel E scale offset).
Proof.
  unfold price_train, train. cbv zeta. rewrite (neutral_groups D gs 0 plain). fold hs E. fold F.
  apply sim_fit; try (unfold rf; intros; subst; auto; fail).
  - assert (H : forall fs i, (forall f, In f fs -> length (f_rows f) = length D /\ f_ext f = false) ->
      RGL (fun i _ p => fst (price_estimates gm a c var_l F D i p)) (fun i _ p => map (estimate_value bad) (group_estimates gm bp ei k F (map x_y E) (map x_w E) i p))
          (fun i _ p => price_smoothing gm a c var_l gs F D i p) (fun i _ p => group_smoother gm bp ei bad k hs F (map x_y E) (map x_w E) i p)
          (fun _ f => f) (kind_calibration k F (map x_w E)) rate rate same_preds rf i fs fs).
    { induction fs as [|f fs IH]; intros i H; constructor; [|apply IH; intros; apply H; cbn; auto].
      destruct (H f (or_introl eq_refl)) as [LR EX].
      assert (LG : forall v, length (gather v (f_lex f)) = length D) by (intro; unfold gather, f_lex, lexicographic_binnos; cbn [fst]; rewrite !map_length; auto).
      constructor; try reflexivity.
      - intros p q v u [<- L] <-. split; auto. apply plen_add; auto.
      - intros p q v u [<- L] <-. split; auto. apply plen_sub; auto.
      - intros s t it p q Sr [<- L]. unfold rf, new_factors. destruct (neutral_estimates i p L) as [-> _]. rewrite (neutral_smoothing i p L). cbv zeta.
        rewrite <- (rs_zero _ _ _ _ Sr). auto. }
    apply H. intros f I. split; [|eapply bind_ext; eauto]. rewrite (bind_in _ _ _ _ I). apply map_length.
  - intros p q [<- L]. unfold price_loss, kind_loss, k. destruct L as [L1 L2]. rewrite (neutral_scores D p neutral L1 L2). unfold E. rewrite !map_map. auto.
  - unfold rf. intros _ i f g u v x y E1 E2 -> ->. unfold clip_absolute, factor_limits. rewrite E1, E2. auto.
  - rewrite <- neutral_column. unfold E. rewrite map_length. split; auto. split; cbn [p_factors p_exponents].
    + rewrite price_priors. apply map_length.
    + unfold zeros. apply repeat_length.
Qed.
Lemma neutral_stores : forall fs i sl tl, RSL rf i sl tl -> map2 store fs sl = map2 store fs tl.
Proof.
  induction fs as [|f fs IH]; intros i sl tl R; cbn [map2]; auto. inversion R; subst; auto. f_equal; [|eapply IH; eauto].
  assert (A : s_agg s = s_agg t). { pose proof (rs_agg _ _ _ _ H) as A. unfold RA, rf in A. destruct (s_agg s), (s_agg t); try contradiction; congruence. }
  unfold store. rewrite A. auto.
Qed.
Theorem neutral_fit fuel : price_fit gm a c var_l prior gs cfg rate fuel D = whole_fit gm bp ei bad k prior hs cfg rate fuel E.
Proof.
  unfold price_fit, whole_fit. cbv zeta. unfold kind_scale, kind_offset. cbn [kind_link k].
  replace (map x_y E) with (map (fun r => x_y (q_row r)) D) by (unfold E; rewrite map_map; auto).
  replace (map x_w E) with (map (fun r => x_w (q_row r)) D) by (unfold E; rewrite map_map; auto).
  replace (map x_prior E) with (map (fun r => x_prior (q_row r)) D) by (unfold E; rewrite map_map; auto).
  change (kind_link k) with Log. destruct (global_scale Log _ _) as [scale|]; auto.
  pose proof (neutral_train fuel scale (prior_offset Log scale (map (fun r => x_prior (q_row r)) D) (map (fun r => x_w (q_row r)) D))) as R.
  destruct (price_train _ _ _ _ _ _ _ _ _ _ _ _) as [[x|e]|], (train _ _ _ _ _ _ _ _ _ _ _ _ _) as [[y|e']|]; cbn in R; try contradiction; auto.
  - rewrite (neutral_groups D gs 0 plain). fold hs E. fold F.
    rewrite (neutral_stores F 0 _ _ (rt_feats _ _ _ _ R)), (rt_iter _ _ _ _ R), (rt_loss _ _ _ _ R). auto.
  - congruence.
Qed.
Theorem neutral_predict t X : Forall neutral_price X -> price_fit_predict prior t X = whole_predict k prior t (map q_row X).
Proof.
  intro NX. unfold price_fit_predict, whole_predict, cb_predict.
  assert (C : linked_column k prior (map q_row X) = price_column prior X) by (unfold linked_column, price_column, k; rewrite map_map; auto).
  rewrite C, !map_map, !map_length. change (kind_output k) with exp.
  f_equal. 
  assert (L : plen (length X) {| p_factors := prior_predictions (o_scale t) (o_offset t) (price_column prior X) (length X); p_exponents := zeros (length X) |}).
  { split; cbn [p_factors p_exponents]; [rewrite price_priors; apply map_length|unfold zeros; apply repeat_length]. }
  destruct (predict_plen (length X) (o_groups t) 0 _ (map (fun r => x_bins (q_row r)) X) L (map_length _ _)) as [L1 L2].
  apply neutral_scores; auto.
Qed.
End Neutral.
