(** Rows of weight zero have no influence on whole trainings. *)
From Coq Require Import ZArith QArith List Bool Reals Lra Lia Permutation FunctionalExtensionality.
From Verif.Proofs Require Import LinkFacts NeutralFacts OrderFacts QuantileFacts BinOrderFacts BinFitFacts.
From Verif.Model Require Import Num LexBins Train Predict Link Estimators WholeFit Quantile LossModes Dispersion BinFit.
From Verif.Spec Require Import DataSpec QuantileSpec BinFitSpec ZeroWeightSpec.
Import ListNotations.
Local Open Scope R_scope.

(** Sums over rows with and without rows of weight zero. *)
Definition weighs {A} (w : A -> R) (s : A) : bool := negb (Reqb (w s) 0).
Lemma sum_weighty {A} (w h : A -> R) l : (forall s, w s = 0 -> h s = 0) -> sumR (map h l) = sumR (map h (filter (weighs w) l)).
Proof.
  intro V. induction l as [|s l IH]; [reflexivity|]. unfold weighs in *. cbn [filter map sumR]. destruct (Reqb (w s) 0) eqn:E.
  - apply Reqb_iff in E. rewrite (V s E). cbn [negb]. rewrite <- IH. lra.
  - cbn [negb map sumR]. rewrite <- IH. reflexivity.
Qed.
Lemma filter_map {A B} (f : A -> B) (c : B -> bool) l : filter c (map f l) = map f (filter (fun x => c (f x)) l).
Proof. induction l as [|x l IH]; cbn; [reflexivity|]. destruct (c (f x)); cbn; rewrite IH; reflexivity. Qed.
Lemma filter_filter {A} (c d : A -> bool) l : filter c (filter d l) = filter d (filter c l).
Proof. induction l as [|x l IH]; cbn; [reflexivity|]. destruct (d x) eqn:E1, (c x) eqn:E2; cbn; rewrite ?E1, ?E2, IH; reflexivity. Qed.
Ltac vanish := let s := fresh in let Z := fresh in intros s Z; cbv beta; rewrite ?Z; unfold Rdiv; ring.

Lemma covered_rows D : covered D -> forall i r, In r (map (fun s => x_bins s i) D) <-> In r (map (fun s => x_bins s i) (weighty D)).
Proof.
  intros Z i r. rewrite !in_map_iff. split; intros (s & <- & I).
  - destruct (Z s i I) as (t & T & <-). eauto.
  - unfold weighty in I. apply filter_In in I. exists s. split; [reflexivity|apply I].
Qed.

Theorem zero_weights gm bppf erfinv bad k prior gs cfg rate fuel D : well_formed gs D -> covered D ->
  whole_fit gm bppf erfinv bad k prior gs cfg rate fuel D = whole_fit gm bppf erfinv bad k prior gs cfg rate fuel (weighty D).
Proof.
  intros W Z. apply fit_same.
  - apply covered_rows, Z.
  - intros h _. apply (sum_weighty x_w). intros s E. rewrite E. ring.
  - exact W.
  - right. intros h V. apply (sum_weighty x_w). exact V.
Qed.

(** ** The loss-minimising modes. *)
Lemma uncertainty_weighty bppf erfinv m (l : list Quantile.sample) : (filter (weighs s_w) l = [] -> l = []) ->
  mode_uncertainty bppf erfinv m (map s_y l) (map s_w l) =
  mode_uncertainty bppf erfinv m (map s_y (filter (weighs s_w) l)) (map s_w (filter (weighs s_w) l)).
Proof.
  intro NE. set (l' := filter (weighs s_w) l) in *.
  assert (Su : forall h, (forall s, s_w s = 0 -> h s = 0) -> sumR (map h l) = sumR (map h l')) by (intros h V; apply (sum_weighty s_w h l V)).
  assert (G : uncertainty_gamma (map s_y l) (map s_w l) = uncertainty_gamma (map s_y l') (map s_w l')).
  { unfold uncertainty_gamma. rewrite !map2_rows', Su by vanish. reflexivity. }
  assert (Ga : uncertainty_gaussian (map s_y l) (map s_w l) = uncertainty_gaussian (map s_y l') (map s_w l')).
  { assert (X : gaussian_of_rows (map s_y l) (map s_w l) = gaussian_of_rows (map s_y l') (map s_w l')).
    { unfold gaussian_of_rows. cbv zeta. rewrite !map_map, !map2_rows'.
      rewrite (Su s_w) by vanish. destruct (Reqb _ 0); auto.
      rewrite (Su (fun s => s_y s * s_w s)) by vanish. set (mu := sumR (map (fun s => s_y s * s_w s) l') / sumR (map s_w l')).
      rewrite (Su (fun s => s_w s * (s_y s - mu) ^ 2)) by vanish.
      set (v := sumR (map (fun s => s_w s * (s_y s - mu) ^ 2) l')). clearbody v.
      rewrite !(Su (fun s => s_w s / _)), !(Su (fun s => s_w s * _)) by vanish. reflexivity. }
    unfold uncertainty_gaussian. destruct l as [|r rows]; [reflexivity|]. destruct l' as [|r' rows']; [specialize (NE eq_refl); discriminate|exact X]. }
  destruct m; cbn [mode_uncertainty]; rewrite ?G; auto.
  unfold uncertainty_beta. rewrite !map2_rows', !(Su (fun s => s_w s * _)) by vanish. reflexivity.
Qed.

(** Rows without those of weight zero. *)
Definition cleaned (l l' : list (WholeFit.sample * R)) : Prop :=
  l' = filter (fun e => weighs x_w (fst e)) l /\ (l' = [] -> l = []).
Lemma loss_rows_weighty k l : loss_rows k (filter (fun e => weighs x_w (fst e)) l) = filter (weighs s_w) (loss_rows k l).
Proof. unfold loss_rows. rewrite filter_map. reflexivity. Qed.
Lemma plain_symmetric m : plain_mode m -> symmetric_mode m /\ weighted_costs (mode_costs m).
Proof. destruct m; cbn; tauto. Qed.

Lemma costs_weighty m f (r : list Quantile.sample) : weighted_costs (mode_costs m) -> (filter (weighs s_w) r = [] -> r = []) ->
  mode_costs m (map (fun s => f (s_pred s)) r) (map s_y r) (map s_w r) =
  mode_costs m (map (fun s => f (s_pred s)) (filter (weighs s_w) r)) (map s_y (filter (weighs s_w) r)) (map s_w (filter (weighs s_w) r)).
Proof.
  intros Wc NE. destruct (filter (weighs s_w) r) as [|a q] eqn:E.
  - rewrite (NE eq_refl). reflexivity.
  - pose proof (Wc (map (triple f) r)) as H. cbv zeta in H. rewrite filter_map in H.
    assert (X : filter (fun x => negb (Reqb (snd (triple f x)) 0)) r = a :: q) by exact E. rewrite X in H.
    rewrite !map_map in H. apply H. discriminate.
Qed.
Lemma filter_perm_nil {A} (c : A -> bool) l l' : Permutation l l' -> (filter c l' = [] -> l' = []) -> filter c l = [] -> l = [].
Proof.
  intros P H E. assert (filter c l' = []).
  { apply Permutation_nil. rewrite <- E. apply filter_perm, P. }
  specialize (H H0). subst l'. apply Permutation_sym, Permutation_nil in P. exact P.
Qed.
Lemma mode_estimate_weighty minimize bppf erfinv reorder bad m l l' : reorders reorder -> plain_mode m -> cleaned l l' ->
  mode_estimate minimize bppf erfinv reorder bad m l = mode_estimate minimize bppf erfinv reorder bad m l'.
Proof.
  intros RE Pm [C NE]. destruct (plain_symmetric m Pm) as [Sm Wm]. unfold mode_estimate. cbv zeta.
  assert (PR : Permutation (loss_rows (mode_link m) (reorder _ l')) (filter (weighs s_w) (loss_rows (mode_link m) (reorder _ l)))).
  { rewrite <- loss_rows_weighty. apply Permutation_map. eapply Permutation_trans; [apply RE|]. subst l'. apply filter_perm, Permutation_sym, RE. }
  assert (NE' : filter (weighs s_w) (loss_rows (mode_link m) (reorder _ l)) = [] -> loss_rows (mode_link m) (reorder _ l) = []).
  { apply (filter_perm_nil _ _ (loss_rows (mode_link m) l)); [apply Permutation_map, RE|]. rewrite <- loss_rows_weighty, <- C. intro E.
    apply map_eq_nil in E. rewrite (NE E). reflexivity. }
  set (r := loss_rows _ (reorder _ l)) in *. set (r' := loss_rows _ (reorder _ l')) in *. clearbody r r'.
  rewrite (uncertainty_any bppf erfinv m r' _ PR), <- uncertainty_weighty by exact NE'. f_equal. f_equal. f_equal.
  unfold optimization. f_equal. apply functional_extensionality. intro p. unfold objective.
  assert (M : exists f, mode_model m p = map f).
  { destruct m; [exists (fun v => p * v)|exists (fun v => p + v)|exists (fun v => p * v)|exists (fun v => p + v)|exists (fun v => p * v)]; reflexivity. }
  destruct M as [f ->]. rewrite !map_map. rewrite (costs_samples m f r' _ Sm PR). apply costs_weighty; auto.
Qed.
Lemma mode_loss_weighty bad m l l' : plain_mode m -> cleaned l l' -> mode_loss bad m l = mode_loss bad m l'.
Proof.
  intros Pm [C NE]. destruct (plain_symmetric m Pm) as [Sm Wm]. unfold mode_loss. cbv zeta. f_equal. subst l'. rewrite loss_rows_weighty.
  apply (costs_weighty m (fun x => x) (loss_rows (mode_link m) l) Wm). rewrite <- loss_rows_weighty. intro E. apply map_eq_nil in E. rewrite (NE E). reflexivity.
Qed.
Theorem mode_zero_weights sort minimize bppf erfinv reorder bad m prior gs cfg rate fuel D :
  reorders reorder -> plain_mode m -> well_formed gs D -> covered D ->
  mode_fit sort minimize bppf erfinv reorder bad m prior gs cfg rate fuel D =
  mode_fit sort minimize bppf erfinv reorder bad m prior gs cfg rate fuel (weighty D).
Proof.
  intros RE Pm W Z. unfold mode_fit.
  assert (Su : forall h, (forall s, x_w s = 0 -> h s = 0) -> sumR (map h D) = sumR (map h (weighty D))) by (intros h V; apply (sum_weighty x_w h D V)).
  assert (S : mode_scale sort m D = mode_scale sort m (weighty D)).
  { destruct m; cbn [plain_mode] in Pm; try contradiction; cbn [mode_scale]; unfold global_scale, weighted_mean; rewrite !map2_rows';
      rewrite (Su x_w), (Su (fun s => x_y s * x_w s)) by vanish; reflexivity. }
  rewrite <- S. destruct (mode_scale sort m D) as [scale|]; auto. cbv zeta.
  assert (Of : prior_offset (mode_link m) scale (map x_prior (weighty D)) (map x_w (weighty D)) = prior_offset (mode_link m) scale (map x_prior D) (map x_w D)).
  { unfold prior_offset, weighted_mean. destruct (finite_values_sum x_prior x_w D) as [-> ->]. destruct (finite_values_sum x_prior x_w (weighty D)) as [-> ->].
    rewrite !(Su (fun s => x_w s * _)) by vanish. reflexivity. }
  rewrite Of. clear Of. apply fit_alike with (alike_rows := cleaned); auto.
  - apply covered_rows, Z.
  - intros i c phi. split.
    + rewrite filter_map. cbn [fst]. unfold weighty. rewrite filter_filter. reflexivity.
    + intro E. apply map_eq_nil in E. destruct (filter (fun s => c (x_bins s i)) D) as [|s r] eqn:F; [reflexivity|]. exfalso.
      assert (I : In s (filter (fun s => c (x_bins s i)) D)) by (rewrite F; left; reflexivity). apply filter_In in I. destruct I as [I C].
      destruct (Z s i I) as (t & T & B). assert (J : In t (filter (fun s => c (x_bins s i)) (weighty D))) by (apply filter_In; rewrite B; auto).
      rewrite E in J. contradiction.
  - intro phi. split; [rewrite filter_map; reflexivity|]. intro E. apply map_eq_nil in E. destruct D as [|s r]; [reflexivity|]. exfalso.
    destruct (Z s 0%nat (or_introl eq_refl)) as (t & T & _). rewrite E in T. contradiction.
  - intro c. apply (sum_weighty x_w). intros s E. rewrite E. destruct (c s); reflexivity.
  - intros _ l l' C. apply mode_estimate_weighty; auto.
  - intros l l' C. apply mode_loss_weighty; auto.
Qed.
