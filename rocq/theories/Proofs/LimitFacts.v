(** The limit of the iterations and the learning rate. *)
From Coq Require Import ZArith QArith Qround List Bool Reals Lra Lia FunctionalExtensionality.
From Verif.Model Require Import Num LexBins Train Predict Link Estimators Gbs WholeFit Regularize BinSmoothers LearnRate.
From Verif.Spec Require Import DataSpec LexSpec PredictSpec EstimatorSpec RegularizeSpec InsampleSpec DescentSpec CellSpec StopSpec LimitSpec.
From Verif.Proofs Require Import TrainFacts LinkFacts LexFacts EstimatorFacts TrainExamples WholeExamples MetaExamples InsampleFacts DescentFacts DescentExamples CellFacts CellExamples StopFacts.
Import ListNotations.
Local Open Scope R_scope.

Theorem limit_only_stops gm bppf erfinv bad k prior gs cfg D given :
  (c_hier cfg = true \/ exists r, given = Some r /\ forall it mx mx', r it mx = r it mx') ->
  criteria_only_stop (fun c fuel => whole_fit gm bppf erfinv bad k prior gs (with_criteria cfg c) (estimator_rate given (with_criteria cfg c)) fuel D).
Proof.
  intro H. set (rate := estimator_rate given cfg).
  assert (E : forall c, estimator_rate given (with_criteria cfg c) = rate).
  { intro c. unfold rate. apply functional_extensionality. intro it. apply functional_extensionality. intro i.
    unfold estimator_rate, learning_rate, chosen_learn_rate. change (c_hier (with_criteria cfg c)) with (c_hier cfg).
    destruct H as [->|(r & -> & Hr)]; [reflexivity|]. destruct (c_hier cfg); [reflexivity|apply Hr]. }
  pose proof (whole_only_stops gm bppf erfinv bad k prior gs cfg rate D) as W.
  replace (fun c fuel => whole_fit gm bppf erfinv bad k prior gs (with_criteria cfg c) (estimator_rate given (with_criteria cfg c)) fuel D)
    with (fun c fuel => whole_fit gm bppf erfinv bad k prior gs (with_criteria cfg c) rate fuel D); [exact W|].
  apply functional_extensionality. intro c. rewrite E. reflexivity.
Qed.

(** ** The default *)
Definition lim_cfg (limit : nat) : settings :=
  {| c_log := false; c_aggregate := true; c_hier := false; c_thier := 0; c_maxiter := limit; c_minfactor := -1; c_minloss := 1 / 1000 |}.

Lemma default_range limit it i : 0 <= estimator_rate None (lim_cfg limit) it i <= 1.
Proof.
  unfold estimator_rate, chosen_learn_rate, learning_rate. cbn [lim_cfg c_hier c_maxiter]. unfold half_linear_learn_rate, linear_learn_rate.
  split; [|apply Rmin_r]. apply Rmin_glb; [|lra].
  destruct limit as [|m].
  - cbn [INR]. rewrite Rmult_0_l. unfold Rdiv. rewrite Rinv_0. lra.
  - apply Rmult_le_pos; [apply pos_INR|]. left. apply Rdiv_lt_0_compat; [lra|]. pose proof (lt_0_INR (S m) ltac:(lia)). lra.
Qed.
Lemma default_first limit : (2 <= limit)%nat -> estimator_rate None (lim_cfg limit) 0 0 = 2 / INR limit.
Proof.
  intro L. pose proof (le_INR 2 limit L) as P. cbn [INR] in P. unfold estimator_rate, chosen_learn_rate, learning_rate.
  cbn [lim_cfg c_hier c_maxiter plus]. unfold half_linear_learn_rate, linear_learn_rate. cbn [INR].
  rewrite Rmin_left; [field; lra|]. replace (1 * (1 / (INR limit * (1 / 2)))) with (2 / INR limit) by (field; lra).
  apply (Rmult_le_reg_r (INR limit)); [lra|]. unfold Rdiv. rewrite Rmult_assoc, Rinv_l by lra. lra.
Qed.

Lemma small_quotient a b : 0 < b -> 0 <= a <= b / 1000 -> Rabs (a / b) <= 1 / 1000.
Proof.
  intros B A. rewrite Rabs_right.
  - apply (Rmult_le_reg_r b); [exact B|]. unfold Rdiv at 1. rewrite Rmult_assoc, Rinv_l by lra. lra.
  - apply Rle_ge, Rmult_le_pos; [lra|]. left. apply Rinv_0_lt_compat, B.
Qed.

Section Run.
Variables (gm : R -> R) (bppf : R -> R -> R -> R) (erfinv : R -> R) (bad : R) (limit : nat).
Hypothesis HL : (2 <= limit)%nat.
Notation D := noisy.
Notation g := plain_group.
Notation cfg := (lim_cfg limit).
Notation rate := (estimator_rate None (lim_cfg limit)).
Notation y := (map x_y D).
Notation w := (map x_w D).
Notation f := (bind_group D 0 g).
Notation kd := (GBSRegressor 0).
Notation calc := (fun i (_ : nat) p => map (estimate_value bad) (group_estimates gm bppf erfinv kd [f] y w i p)).
Notation smooth := (fun i (_ : nat) p => group_smoother gm bppf erfinv bad kd [g] [f] y w i p).
Notation loss := (fun p => kind_loss bad kd y w (p_factors p)).
Notation start := {| p_factors := repeat 0 (length D); p_exponents := zeros (length D) |}.

Lemma HWn : Forall (fun s => 0 <= x_w s) D.
Proof. repeat constructor; cbn; lra. Qed.
Lemma HVn : visits D <> 0.
Proof. rewrite noisy_visits. lra. Qed.
Lemma scale_n : kind_scale kd y w = Some 0.
Proof.
  cbn [kind_scale]. unfold gbs_global_scale. cbn [noisy map w_row x_y x_w sumR map2].
  rewrite (proj2 (Reqb_false_iff _ _)) by lra. f_equal. field.
Qed.

Lemma one_pass : exists t, whole_fit gm bppf erfinv bad kd false [g] cfg rate limit D = Trained t /\ o_iterations t = 1%nat /\
  nth_error (whole_predict kd false t D) 0 = Some (2 / INR limit * (2 / 3)).
Proof.
  pose proof (default_range limit) as HR.
  destruct (reached_next gm bppf erfinv bad 0 g cfg rate D (Rle_refl 0) plain_binned HWn HVn HR eq_refl (or_introl eq_refl) eq_refl eq_refl 0 (init_state [f] loss start)
    (reached_init bad 0 g rate D plain_binned 0)) as (s1 & E1 & R1 & N1).
  pose proof R1 as (G & (s & Es & _ & SA) & DE & LV). destruct G as ((L1 & _) & LO & LE & ND).
  assert (LC : t_losschange s1 = loss_change (loss start) (t_loss s1)).
  { unfold iteration in E1. destruct (features_pass _ _ _ _ _ _ 0 _ _ _ _ _ _ _) as [[sl p]|]; [|discriminate]. cbv zeta in E1.
    destruct (_ && _); [discriminate|].
    match type of E1 with match ?b with _ => _ end = _ => destruct b as [[sl' p']|]; [|discriminate] end. injection E1 as <-. reflexivity. }
  set (r := rate 0%nat 0%nat) in *. pose proof (HR 0%nat 0%nat) as Rr. fold r in Rr.
  assert (ER : r = 2 / INR limit) by (exact (default_first limit HL)).
  assert (LX : f_lex f = [0; 0; 1; 1; 1; 1]%nat) by reflexivity.
  assert (N1' : t_iter s1 = 1%nat) by exact N1. rewrite N1' in LV.
  assert (V0 : level 0 g rate D 0 1 0 = r * (2 / 3)).
  { cbn [level]. unfold step. change (f_mnl f) with false. cbn [andb]. fold r. unfold by_, bw, bin_weight, bin_sum. rewrite LX. cbn. field. }
  assert (V1 : level 0 g rate D 0 1 1 = r * (- 2 / 5)).
  { cbn [level]. unfold step. change (f_mnl f) with false. cbn [andb]. fold r. unfold by_, bw, bin_weight, bin_sum. rewrite LX. cbn. field. }
  rewrite LX in LV. change (length D) with 6%nat in LV, L1.
  assert (PF : p_factors (t_preds s1) = [r * (2 / 3); r * (2 / 3); r * (- 2 / 5); r * (- 2 / 5); r * (- 2 / 5); r * (- 2 / 5)]).
  { apply (nth_ext _ _ 0 0); [exact L1|]. intros j J. rewrite L1 in J. rewrite (LV j J).
    destruct j as [|[|[|[|[|[|j]]]]]]; cbn [nth]; [exact V0|exact V0|exact V1|exact V1|exact V1|exact V1|lia]. }
  clearbody r.
  assert (S0 : loss start = (101 ^ 2 + 99 ^ 2 + 2 * (199 / 2) ^ 2 + 2 * (201 / 2) ^ 2) / 6).
  { pose proof (gbs_loss_value bad 0 D HVn start (repeat_length _ _)) as V. cbv beta in V |- *. rewrite V, noisy_visits. cbn. field. }
  assert (S1 : t_loss s1 = ((r * (2 / 3) - 101) ^ 2 + (r * (2 / 3) + 99) ^ 2 + 2 * (r * (- 2 / 5) - 199 / 2) ^ 2 + 2 * (r * (- 2 / 5) + 201 / 2) ^ 2) / 6).
  { rewrite LO. pose proof (gbs_loss_value bad 0 D HVn (t_preds s1) L1) as V. cbv beta in V. rewrite V, noisy_visits, PF. cbn. field. }
  cbv beta in S0, LC, LE |- *.
  assert (CH : Rabs (t_losschange s1) <= 1 / 1000).
  { rewrite LC, S0. unfold loss_change. rewrite (proj2 (Reqb_false_iff _ _)) by lra. rewrite S1.
    assert (0 <= r * r) by nra. assert (r * r <= r) by nra. apply small_quotient; [lra|]. split; nra. }
  assert (C0 : continues cfg (init_state [f] loss start) = true).
  { unfold continues, check_stop, stop_iterations, stop_factor_change, stop_loss_change. cbn [lim_cfg c_maxiter c_minfactor c_minloss init_state t_iter t_delta t_losschange].
    rewrite (proj2 (Nat.leb_gt _ _)) by lia. rewrite (proj2 (Rleb_false _ _)) by lra. rewrite (proj2 (Rleb_false _ _)); [reflexivity|].
    rewrite Rabs_right; lra. }
  assert (C1 : continues cfg s1 = false).
  { unfold continues, check_stop, stop_loss_change. cbn [c_minloss lim_cfg]. rewrite (proj2 (Rleb_iff _ _) CH), ND, orb_true_r.
    unfold veto_hierarchical. cbn [c_hier lim_cfg]. rewrite andb_false_r. reflexivity. }
  assert (Lo : loop cfg [f] calc smooth (kind_calibration kd [f] w) rate loss limit (loss start) (init_state [f] loss start) = Some (Ok s1)).
  { destruct limit as [|lim]; [lia|]. cbn [loop]. rewrite C0. cbv beta in E1 |- *. rewrite E1.
    assert (FI : finish (loss start) s1 = Ok s1).
    { unfold finish. rewrite Es. cbn [forallb]. destruct (s_agg s); [|exfalso; apply SA; congruence]. cbn [andb].
      unfold is_diverged. rewrite (proj2 (Rltb_false _ _)); [reflexivity|]. cbv beta. rewrite S0 in LE |- *. lra. }
    cbv beta in FI. destruct lim; cbn [loop]; rewrite C1, FI; reflexivity. }
  assert (F : exists t, whole_fit gm bppf erfinv bad kd false [g] cfg rate limit D = Trained t /\ o_iterations t = 1%nat /\ o_scale t = 0).
  { unfold whole_fit. rewrite scale_n. cbv zeta. unfold train. cbv zeta. unfold fit_main. cbn [linked_column prior_predictions bind_groups].
    cbv beta in Lo |- *. rewrite Lo. eexists. split; [reflexivity|]. split; [exact N1'|reflexivity]. }
  destruct F as (t & F & N & SC). exists t. split; [exact F|]. split; [exact N|].
  rewrite (learned_mean gm bppf erfinv bad 0 g cfg rate D (Rle_refl 0) plain_binned HWn HVn HR eq_refl (or_introl eq_refl) eq_refl eq_refl
    limit t 0%nat (w_row 0 101 1) first_cell 1 F eq_refl noisy_cell noisy_cell_mean (or_introl eq_refl)).
  rewrite SC, N, noisy_cell_weight. cbn [left_over]. rewrite (default_first limit HL). f_equal.
  pose proof (le_INR 2 limit HL) as PL. cbn [INR] in PL. field. lra.
Qed.
End Run.

(** With the limit 2 the first row is predicted as 2/3, with the limit 4 as 1/3. *)
Theorem default_limit_refuted : forall gm bppf erfinv bad, exists k gs cfg D n t t' p p',
  c_hier cfg = false /\ c_aggregate cfg = true /\ (c_maxiter cfg < n)%nat /\
  whole_fit gm bppf erfinv bad k false gs cfg (estimator_rate None cfg) (c_maxiter cfg) D = Trained t /\
  (o_iterations t < c_maxiter cfg)%nat /\
  whole_fit gm bppf erfinv bad k false gs (limited_to n cfg) (estimator_rate None (limited_to n cfg)) n D = Trained t' /\
  o_iterations t' = o_iterations t /\
  nth_error (whole_predict k false t D) 0 = Some p /\ nth_error (whole_predict k false t' D) 0 = Some p' /\ p = 2 * p' /\ p <> p'.
Proof.
  intros gm bppf erfinv bad. destruct (one_pass gm bppf erfinv bad 2 ltac:(lia)) as (t & F & N & P).
  destruct (one_pass gm bppf erfinv bad 4 ltac:(lia)) as (t' & F' & N' & P').
  exists (GBSRegressor 0), [plain_group], (lim_cfg 2), noisy, 4%nat, t, t', (2 / INR 2 * (2 / 3)), (2 / INR 4 * (2 / 3)).
  split; [reflexivity|]. split; [reflexivity|]. split; [cbn; lia|]. split; [exact F|]. split; [rewrite N; cbn; lia|].
  split; [exact F'|]. split; [congruence|]. split; [exact P|]. split; [exact P'|]. cbn [INR]. split; [field|lra].
Qed.

Lemma given_unused r r' cfg it i : c_hier cfg = true -> estimator_rate r cfg it i = 1 /\ estimator_rate r cfg = estimator_rate r' cfg.
Proof.
  intro H. split; [|apply functional_extensionality; intro n; apply functional_extensionality; intro m];
    unfold estimator_rate, chosen_learn_rate; rewrite H; reflexivity.
Qed.

Lemma default_case cfg : c_hier cfg = false -> c_maxiter cfg = 4%nat ->
  estimator_rate None cfg 0 0 = 1 / 2 /\ estimator_rate None cfg 1 0 = 1 /\ estimator_rate (Some constant_learn_rate_one) cfg 0 0 = 1.
Proof.
  intros H M. unfold estimator_rate, chosen_learn_rate, learning_rate. rewrite H, M. cbn [plus].
  unfold half_linear_learn_rate, linear_learn_rate. cbn [INR].
  split; [rewrite Rmin_left by lra; field|]. split; [rewrite Rmin_left by lra; field|reflexivity].
Qed.
