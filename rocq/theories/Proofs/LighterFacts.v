(** A constant dispersion of the negative binomial regressor. *)
From Coq Require Import ZArith QArith List Bool Reals Lia Lra.
From Verif.Model Require Import Num LexBins Train Predict Link Estimators Regularize BinSmoothers WholeFit.
From Verif.Spec Require Import LexSpec PredictSpec EstimatorSpec InsampleSpec CellSpec PoissonCellSpec LighterSpec.
From Verif.Proofs Require Import TrainFacts LinkFacts EstimatorFacts TotalFacts InsampleFacts CellFacts InertFacts PoissonCell SameFit.
Import ListNotations.
Local Open Scope R_scope.

Lemma sum_scaled a w : sumR (map (fun x => x / a) w) = sumR w / a.
Proof. induction w as [|x w IH]; cbn [map sumR]; [unfold Rdiv; ring|]. rewrite IH. unfold Rdiv. ring. Qed.
Lemma map2_scaled a : forall y w, map2 Rmult y (map (fun x => x / a) w) = map (fun x => x / a) (map2 Rmult y w).
Proof. induction y as [|v y IH]; intros [|x w]; cbn; try reflexivity. rewrite IH. f_equal. unfold Rdiv. ring. Qed.
Lemma quotient_scaled a u v : a <> 0 -> v <> 0 -> (u / a) / (v / a) = u / v.
Proof. intros. field. auto. Qed.
Lemma mean_scaled a y w : a <> 0 -> weighted_mean y (map (fun x => x / a) w) = weighted_mean y w.
Proof.
  intro A. unfold weighted_mean. rewrite map2_scaled, !sum_scaled. destruct (Req_EM_T (sumR w) 0) as [Z|Z].
  - rewrite Z. replace (0 / a) with 0 by (unfold Rdiv; ring). unfold Reqb. destruct (Req_EM_T 0 0); [reflexivity|contradiction].
  - assert (Z' : sumR w / a <> 0) by (intro E; apply Z; apply (Rmult_eq_reg_r (/ a)); [unfold Rdiv in E; rewrite E; ring|apply Rinv_neq_0_compat; exact A]).
    rewrite (proj2 (Reqb_false_iff _ _) Z), (proj2 (Reqb_false_iff _ _) Z'), quotient_scaled by assumption. reflexivity.
Qed.
Lemma finite_values_scaled a : forall p w, finite_values p (map (fun x => x / a) w) = finite_values p w.
Proof. induction p as [|[v|] p IH]; intros [|x w]; cbn; try reflexivity; rewrite IH; reflexivity. Qed.
Lemma finite_weights_scaled a : forall p w, finite_weights p (map (fun x => x / a) w) = map (fun x => x / a) (finite_weights p w).
Proof. induction p as [|[v|] p IH]; intros [|x w]; cbn; try reflexivity; rewrite IH; reflexivity. Qed.
Lemma bin_total_scaled a : forall lex w k, bin_total lex (map (fun x => x / a) w) k = bin_total lex w k / a.
Proof. induction lex as [|b lex IH]; intros [|x w] k; cbn; try (unfold Rdiv; ring). rewrite IH. destruct (Nat.eqb b k); unfold Rdiv; ring. Qed.

Section Lighter.
Variables (gm : R -> R) (bppf : R -> R -> R -> R) (erfinv : R -> R) (bad : R) (a : R).
Hypothesis A : 0 < a.
Notation nb := (NBinomRegressor a 0).
Notation kd := PoissonRegressor.
Notation down := (map (fun x => x / a)).

Lemma parameters_scaled lex n y w s : per_row lex y -> per_row lex w -> per_row lex s ->
  nbinom_parameters gm a 0 lex n y w s = poisson_parameters gm (poisson_precalc lex n y (down w)) lex n (down w) s.
Proof.
  intros Hy Hw Hs. unfold nbinom_parameters, poisson_parameters, poisson_precalc. cbv zeta.
  pose proof (pr_map lex (unlink_func Log) s Hs) as Hp. pose proof (pr_map lex (fun x => x / a) w Hw) as Hd.
  assert (Ha : forall k, bin_total lex (map2 (fun wy p => wy / (a + 0 * p)) (map2 Rmult w y) (map (unlink_func Log) s)) k
    = bin_total lex (map2 Rmult y (down w)) k).
  { intro k. rewrite !bin_total_sum by (repeat apply pr_map2; auto). apply bin_sum_ext. intros j Hj. cbv beta.
    rewrite (at_map2 lex) by (auto using pr_map2). rewrite !(at_map2 lex) by auto. rewrite (at_map lex _ w) by auto. field; try lra. }
  assert (Hb : forall k, bin_total lex (map2 (fun v p => v * p / (a + 0 * p)) w (map (unlink_func Log) s)) k
    = bin_total lex (map2 Rmult (down w) (map (unlink_func Log) s)) k).
  { intro k. rewrite !bin_total_sum by (repeat apply pr_map2; auto). apply bin_sum_ext. intros j Hj. cbv beta.
    rewrite !(at_map2 lex) by auto. rewrite (at_map lex _ w) by auto. field; try lra. }
  f_equal; unfold bincounts; apply map_ext; auto.
Qed.

Lemma bind_lighter D : forall gs i, bind_groups (map (lighter a) D) i gs = bind_groups D i gs.
Proof. induction gs as [|g gs IH]; intro i; cbn [bind_groups]; [reflexivity|]. rewrite IH. unfold bind_group. rewrite map_map. reflexivity. Qed.
Lemma columns_lighter D : map x_y (map (lighter a) D) = map x_y D /\ map x_prior (map (lighter a) D) = map x_prior D /\
  map x_bins (map (lighter a) D) = map x_bins D /\ map x_w (map (lighter a) D) = down (map x_w D).
Proof. rewrite !map_map. repeat split; reflexivity. Qed.
Lemma loss_lighter y w s : sumR w <> 0 -> kind_loss bad nb y w s = kind_loss bad kd y (down w) s.
Proof.
  intro Z. cbn [kind_loss kind_link]. unfold squared_loss. cbv zeta. rewrite map2_scaled, !sum_scaled, quotient_scaled by (try lra; exact Z). reflexivity.
Qed.
Lemma bind_lex D : forall gs i f, In f (bind_groups D i gs) -> length (f_lex f) = length D /\ f_ext f = false.
Proof.
  induction gs as [|g gs IH]; intros i f If; cbn [bind_groups] in If; [destruct If|]. destruct If as [<-|If]; [|exact (IH _ _ If)].
  split; [|reflexivity]. rewrite f_lex_length. cbn. apply map_length.
Qed.

Theorem lighter_fit prior gs cfg rate fuel D : Forall (unmoved_by a) gs ->
  whole_fit gm bppf erfinv bad nb prior gs cfg rate fuel D = whole_fit gm bppf erfinv bad kd prior gs cfg rate fuel (map (lighter a) D).
Proof.
  intro RO. destruct (columns_lighter D) as (Ey & Ep & _ & Ew).
  unfold whole_fit. rewrite Ey, Ep, Ew.
  assert (SC : kind_scale kd (map x_y D) (down (map x_w D)) = kind_scale nb (map x_y D) (map x_w D)).
  { cbn [kind_scale kind_link]. unfold global_scale. rewrite mean_scaled by lra. reflexivity. }
  rewrite SC. destruct (kind_scale nb (map x_y D) (map x_w D)) as [sc|] eqn:Esc; [|reflexivity]. cbv zeta.
  assert (OF : kind_offset kd sc (map x_prior D) (down (map x_w D)) = kind_offset nb sc (map x_prior D) (map x_w D)).
  { cbn [kind_offset kind_link]. unfold prior_offset. rewrite finite_values_scaled, finite_weights_scaled, mean_scaled by lra. reflexivity. }
  rewrite OF, bind_lighter.
  assert (WZ : sumR (map x_w D) <> 0).
  { cbn [kind_scale kind_link] in Esc. unfold global_scale, weighted_mean in Esc. intro Z. rewrite Z in Esc.
    unfold Reqb in Esc. destruct (Req_EM_T 0 0); [discriminate|contradiction]. }
  assert (T : train gm bppf erfinv bad nb prior gs cfg rate fuel D sc (kind_offset nb sc (map x_prior D) (map x_w D)) =
    train gm bppf erfinv bad kd prior gs cfg rate fuel (map (lighter a) D) sc (kind_offset nb sc (map x_prior D) (map x_w D))).
  { unfold train. cbv zeta. rewrite bind_lighter, Ey, Ew, map_length. unfold linked_column. cbn [kind_link]. rewrite Ep.
    assert (ES : forall i p, length (p_factors p) = length D ->
      group_estimates gm bppf erfinv nb (bind_groups D 0 gs) (map x_y D) (map x_w D) i p =
      group_estimates gm bppf erfinv kd (bind_groups D 0 gs) (map x_y D) (down (map x_w D)) i p).
    { intros i p L. unfold group_estimates. destruct (nth_error (bind_groups D 0 gs) i) as [f|] eqn:E; [|reflexivity].
      destruct (bind_lex D gs 0%nat f (nth_error_In _ _ E)) as (Lf & _). cbn [estimates]. cbv zeta.
      rewrite parameters_scaled by (unfold per_row; rewrite ?map_length, Lf; auto). reflexivity. }
    apply (fit_same cfg (bind_groups D 0 gs) (length D)).
    - exact (bind_lex D gs 0%nat).
    - intros i it p L. rewrite ES by exact L. reflexivity.
    - intros i it p v b L. unfold group_smoother. destruct (nth_error gs i) as [g|] eqn:Eg; [|reflexivity].
      destruct (nth_error (bind_groups D 0 gs) i) as [f|]; [|reflexivity]. rewrite ES by exact L.
      rewrite Forall_forall in RO. pose proof (RO g (nth_error_In _ _ Eg)) as RG.
      assert (EB : bincounts (f_lex f) (down (map x_w D)) (f_finite f) = down (bincounts (f_lex f) (map x_w D) (f_finite f))).
      { unfold bincounts. rewrite (map_map (bin_total (f_lex f) (map x_w D))). apply map_ext. intro k. apply bin_total_scaled. }
      rewrite EB, RG. reflexivity.
    - reflexivity.
    - intros p _. apply loss_lighter. exact WZ.
    - cbn [p_factors]. unfold prior_predictions. destruct prior; [|apply repeat_length].
      unfold linked_prior. rewrite ?map_length. reflexivity. }
  rewrite T. reflexivity.
Qed.
Lemma lighter_predict prior t X : whole_predict nb prior t X = whole_predict kd prior t X.
Proof. reflexivity. Qed.
End Lighter.

(** Without any condition for the default values a = 1 and c = 0. *)
Lemma lighter_one D : map (lighter 1) D = D.
Proof.
  rewrite <- (map_id D) at 2. apply map_ext. intros [b p y w]. unfold lighter. cbn [x_bins x_prior x_y x_w]. f_equal. unfold Rdiv. rewrite Rinv_1. ring.
Qed.
Lemma unmoved_one g : unmoved_by 1 g.
Proof.
  intros c w u v b. replace (map (fun x => x / 1) w) with w; [reflexivity|]. rewrite <- (map_id w) at 1. apply map_ext. intro x. unfold Rdiv. rewrite Rinv_1. ring.
Qed.
Theorem default_is_poisson gm bppf erfinv bad prior gs cfg rate fuel D :
  whole_fit gm bppf erfinv bad (NBinomRegressor 1 0) prior gs cfg rate fuel D = whole_fit gm bppf erfinv bad PoissonRegressor prior gs cfg rate fuel D.
Proof.
  rewrite (lighter_fit gm bppf erfinv bad 1 Rlt_0_1), lighter_one; [reflexivity|]. apply Forall_forall. intros g _. apply unmoved_one.
Qed.

(** Smoothers that do not notice. *)
Lemma unmoved_values a : forall c w u v b, bin_values c (map (fun x => x / a) w) u v b = bin_values c w u v b.
Proof. reflexivity. Qed.
Lemma norm_scaled a w v : 0 < a -> bins_norm (map (fun x => x / a) w) v = bins_norm w v.
Proof.
  intro A. unfold bins_norm. cbv zeta. rewrite map2_scaled, !sum_scaled. unfold Rltb.
  destruct (Rlt_dec 0 (sumR w)) as [P|P], (Rlt_dec 0 (sumR w / a)) as [Q|Q]; try reflexivity.
  - apply quotient_scaled; lra.
  - exfalso. apply Q. apply Rdiv_lt_0_compat; assumption.
  - exfalso. apply P. replace (sumR w) with (sumR w / a * a) by (field; lra). apply Rmult_lt_0_compat; assumption.
Qed.
Lemma unmoved_default a : 0 < a -> forall c w u v b, default_unordered c (map (fun x => x / a) w) u v b = default_unordered c w u v b.
Proof.
  intros A c w u v b. unfold default_unordered, cut_unseen, normalised, weighted_mean_bins. cbv zeta. rewrite norm_scaled by exact A.
  assert (E : nth b (map (fun x => x / a) w) 0 = nth b w 0 / a).
  { destruct (Nat.lt_ge_cases b (length w)) as [L|L]; [exact (nth_map_lt (fun x => x / a) w b 0 0 L)|]. rewrite !nth_overflow by (rewrite ?map_length; exact L). unfold Rdiv. ring. }
  rewrite E. unfold Reqb. destruct (Req_EM_T (nth b w 0) 0) as [Z|Z], (Req_EM_T (nth b w 0 / a) 0) as [Y|Y]; try reflexivity.
  - exfalso. apply Y. rewrite Z. unfold Rdiv. ring.
  - exfalso. apply Z. apply (Rmult_eq_reg_r (/ a)); [unfold Rdiv in Y; rewrite Y; ring|apply Rinv_neq_0_compat; lra].
Qed.

(** What a single group learns. *)
Lemma cell_sum_lighter a cell f f' D : (forall s, f (lighter a s) = f' s / a) -> (forall s, cell (lighter a s) = cell s) ->
  cell_sum cell f (map (lighter a) D) = cell_sum cell f' D / a.
Proof.
  intros H C. induction D as [|s D IH]; cbn [map cell_sum]; [unfold Rdiv; ring|]. rewrite IH, H, C. destruct (cell s); unfold Rdiv; ring.
Qed.

Section Limit.
Variables (gm : R -> R) (bppf : R -> R -> R -> R) (erfinv : R -> R) (bad a : R).
Hypothesis A : 0 < a.
Theorem nbinom_limit g rate D : median_near gm -> poisson_data g (map (lighter a) D) -> g_smoother g = bin_values ->
  forall rho, 0 < rho -> (forall it i, rho <= rate it i <= 1) -> forall j s cell m eps,
  nth_error D j = Some s -> cell_of D s cell -> cell_mean cell D m -> 0 < cell_weight cell D ->
  (g_mnl g = false \/ ~ missing_entry (x_bins s 0%nat)) -> 0 < eps ->
  exists enough, forall cfg fuel t p,
    (c_hier cfg = false \/ g_hier g = true) -> c_log cfg = true -> c_aggregate cfg = true ->
    whole_fit gm bppf erfinv bad (NBinomRegressor a 0) false [g] cfg rate fuel D = Trained t ->
    (enough <= o_iterations t)%nat ->
    nth_error (whole_predict (NBinomRegressor a 0) false t D) j = Some p ->
    Rabs (p - limited (smallest_factor (g_dim g) * exp (o_scale t)) (largest_factor (g_dim g) * exp (o_scale t)) m)
      <= 12/1000 * a / cell_weight cell D + eps.
Proof.
  intros HM HP HS rho Hrho HR j s cell m eps E C M P NM He.
  set (cell' := fun s' => cellb (x_bins s 0%nat) (x_bins s' 0%nat)).
  assert (HB : forall s' x, In s' D -> In x (x_bins s' 0%nat) -> whole x).
  { intros s' x I X. exact (proj2 (proj2 (proj1 HP)) (lighter a s') 0%nat x (in_map (lighter a) D s' I) X). }
  assert (CE : forall s', In s' D -> cell' s' = cell s').
  { intros s' I. pose proof (cellb_spec (x_bins s 0%nat) (x_bins s' 0%nat) (fun x => HB s x (nth_error_In _ _ E)) (fun x => HB s' x I)) as K.
    specialize (C s' I). unfold cell'. destruct (cellb _ _), (cell s'); try reflexivity; [symmetry; tauto|tauto]. }
  assert (CS : forall f L, incl L D -> cell_sum cell' f L = cell_sum cell f L).
  { intros f L. induction L as [|x L IH]; intro I; cbn [cell_sum]; [reflexivity|]. rewrite IH by (intros z Hz; apply I; right; exact Hz).
    rewrite CE by (apply I; left; reflexivity). reflexivity. }
  assert (C' : cell_of (map (lighter a) D) (lighter a s) cell').
  { intros s' I. apply in_map_iff in I. destruct I as (s0 & <- & I). exact (cellb_spec _ _ (fun x => HB s x (nth_error_In _ _ E)) (fun x => HB s0 x I)). }
  assert (W' : cell_weight cell' (map (lighter a) D) = cell_weight cell D / a).
  { unfold cell_weight. rewrite (cell_sum_lighter a cell' x_w x_w) by reflexivity. rewrite CS by apply incl_refl. reflexivity. }
  assert (M' : cell_mean cell' (map (lighter a) D) m).
  { unfold cell_mean in *. rewrite W', (cell_sum_lighter a cell' _ (fun s => x_w s * x_y s)) by (intros; cbn; unfold Rdiv; ring || reflexivity).
    rewrite CS by apply incl_refl. rewrite <- M. unfold Rdiv. ring. }
  destruct (poisson_limit gm bppf erfinv bad g rate (map (lighter a) D) HM HP HS rho Hrho HR j (lighter a s) cell' m eps (map_nth_error _ _ _ E) C' M'
    ltac:(rewrite W'; apply Rdiv_lt_0_compat; assumption) NM He) as (n & H).
  exists n. intros cfg fuel t p HH Hl Ha F I EP. rewrite (lighter_fit gm bppf erfinv bad a A) in F.
  - assert (EP' : nth_error (whole_predict PoissonRegressor false t (map (lighter a) D)) j = Some p).
    { rewrite <- EP. f_equal. unfold whole_predict. destruct (columns_lighter a D) as (_ & _ & -> & _). reflexivity. }
    specialize (H cfg fuel t p HH Hl Ha F I EP'). rewrite W' in H. replace (12/1000 * a / cell_weight cell D) with (12/1000 / (cell_weight cell D / a)) by (field; lra). exact H.
  - constructor; [|constructor]. intros c w u v b. rewrite HS. reflexivity.
Qed.
End Limit.
