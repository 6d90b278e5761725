(** A constant target that the training of the Poisson regressor gives up on. *)
From Coq Require Import ZArith QArith Qround List Bool Reals Lra Lia.
From Verif.Model Require Import Num LexBins Train Predict Link Estimators Gbs WholeFit Regularize BinSmoothers.
From Verif.Spec Require Import DataSpec LinkSpec InsampleSpec ConstantSpec.
From Verif.Proofs Require Import TrainFacts TrainBounds LinkFacts RegularizeFacts TrainExamples WholeExamples ConstantFacts.
Import ListNotations.
Local Open Scope R_scope.

(** ** The loop *)
(** The settings of the constructor. *)
Definition d_cfg : settings :=
  {| c_aggregate := true; c_log := true; c_hier := false; c_thier := 3; c_maxiter := 10;
     c_minfactor := 1 / 10000; c_minloss := 1 / 1000000 |}.
Definition d_rate (it i : nat) : R := learning_rate half_linear_learn_rate 10 it.
Definition d_feature : feature := {| f_dim := 1; f_rows := [[Fin 0%Q]; [NaN]]; f_hier := false; f_mnl := false; f_ext := false |}.

Lemma d_rates : d_rate 0 0 = 1 / 5 /\ d_rate 1 0 = 2 / 5 /\ d_rate 2 0 = 3 / 5 /\ d_rate 3 0 = 4 / 5 /\ forall n, (4 <= n)%nat -> d_rate n 0 = 1.
Proof.
  unfold d_rate, learning_rate, half_linear_learn_rate, linear_learn_rate. 
  assert (E : forall n, INR n * (1 / (INR 10 * (1 / 2))) = INR n / 5) by (intro n; cbn [INR]; field).
  rewrite !E. cbn [Nat.add]. repeat split; try (cbn [INR]; rewrite Rmin_left by lra; lra).
  intros n H. rewrite E. apply Rmin_right. rewrite plus_INR. apply le_INR in H. cbn [INR] in *. lra.
Qed.

Definition at_preds (u v : R) : preds := {| p_factors := [u; v]; p_exponents := [0; 0] |}.
Lemma same_state p p' fs fs' n d b l lc lc' dl dl' : p = p' -> fs = fs' -> lc = lc' -> dl = dl' ->
  Ok {| t_preds := p; t_feats := fs; t_iter := n; t_diverging := d; t_isdiv := b; t_loss := l; t_losschange := lc; t_delta := dl |} =
  Ok {| t_preds := p'; t_feats := fs'; t_iter := n; t_diverging := d; t_isdiv := b; t_loss := l; t_losschange := lc'; t_delta := dl' |}.
Proof. intros -> -> -> ->. reflexivity. Qed.
Ltac dmatch := apply same_state; [match_up|match_up|try reflexivity|try reflexivity].

Section Stuck.
Variables (calc : nat -> nat -> preds -> list R) (loss : preds -> R) (s u a b l0 lu l1 l2 l3 l4 : R).
Variable smooth : nat -> nat -> preds -> list R -> nat -> option R.
Variable rate : nat -> nat -> R.
Hypothesis HA : - (1 / 4) <= a <= - (6 / 10000).
Hypothesis HB : - (1 / 4) <= b <= - (1 / 10000).
Hypothesis Hu : s + 1 / 5 * a = u.
Hypothesis HC : forall it, calc 0%nat it (at_preds s s) = [a; a].
Hypothesis HD : forall it, calc 0%nat it (at_preds u u) = [b; b].
Hypothesis HM : forall it, smooth 0%nat it (at_preds s s) [a] 0%nat = Some a.
Hypothesis HN : forall it, smooth 0%nat it (at_preds u u) [b] 0%nat = Some b.
Hypothesis R0 : rate 0%nat 0%nat = 1 / 5.
Hypothesis R1 : rate 1%nat 0%nat = 2 / 5.
Hypothesis R2 : rate 2%nat 0%nat = 3 / 5.
Hypothesis R3 : rate 3%nat 0%nat = 4 / 5.
Hypothesis RN : forall n, (4 <= n)%nat -> rate n 0%nat = 1.
Hypothesis L0 : loss (at_preds s s) = l0.
Hypothesis Lu : loss (at_preds u u) = lu.
Hypothesis L1 : loss (at_preds (u + 2 / 5 * b) (u + 2 / 5 * b)) = l1.
Hypothesis L2 : loss (at_preds (u + 3 / 5 * b) (u + 3 / 5 * b)) = l2.
Hypothesis L3 : loss (at_preds (u + 4 / 5 * b) (u + 4 / 5 * b)) = l3.
Hypothesis L4 : loss (at_preds (s + 1 * 0) (s + a)) = l4.
Hypothesis P0 : 0 < l0.
Hypothesis Pu : 0 < lu <= 95 / 100 * l0.
Hypothesis P1 : 2 * l0 < l1.
Hypothesis P2 : 2 * l0 < l2.
Hypothesis P3 : 2 * l0 < l3.
Hypothesis P4 : 2 * l0 < l4.
Notation d_iter := (iteration d_cfg [d_feature] calc smooth ex_id rate loss l0).
Notation d_loop := (loop d_cfg [d_feature] calc smooth ex_id rate loss).

Definition d_st (p : R) (n d : nat) (isd z : bool) (fac old agg : list R) (lo lc dl : R) : state := {|
  t_preds := at_preds p p;
  t_feats := [{| s_fitted := true; s_factors := fac; s_old := old; s_agg := Some agg; s_zero := z |}];
  t_iter := n; t_diverging := d; t_isdiv := isd; t_loss := lo; t_losschange := lc; t_delta := dl |}.

Lemma s_zero_add : s + - 0 = s. Proof. lra. Qed.
Lemma u_back : u + - (1 / 5 * a) = s. Proof. lra. Qed.
Ltac flip := match goal with |- context [?x * ?q] => first [constr_eq x a | constr_eq x b]; rewrite (Rmult_comm x q) end.
Ltac known := first [rewrite HC | rewrite HD | rewrite HM | rewrite HN | rewrite R0 | rewrite R1 | rewrite R2 | rewrite R3 | rewrite RN by lia
  | flip | rewrite (Rmult_1_l a) | rewrite Hu | rewrite u_back | rewrite s_zero_add
  | rewrite L0 | rewrite Lu | rewrite L1 | rewrite L2 | rewrite L3 | rewrite L4].
Ltac nonzero := match goal with |- context [Reqb ?x ?y] => rewrite (proj2 (Reqb_false_iff x y)) by lra end.
Ltac dsteps := repeat (first [known | nonzero | real_step]; comp).
Ltac setup := pose proof ln2_quarter; pose proof ln_limits_1; pose proof ln_facts; unfold at_preds in *.

Lemma ln_step : ln (8 / 10) <= - (1 / 10) /\ 1 / 10 <= ln (12 / 10).
Proof.
  pose proof (exp_ineq1 (- (1 / 10)) ltac:(lra)) as E. pose proof (exp_ineq1 (1 / 10) ltac:(lra)).
  assert (E2 : exp (1 / 10) * exp (- (1 / 10)) = 1) by (rewrite <- exp_plus, Rplus_opp_r; apply exp_0). pose proof (exp_pos (1 / 10)).
  split.
  - rewrite <- (ln_exp (- (1 / 10))). apply ln_le_mono; lra.
  - rewrite <- (ln_exp (1 / 10)). apply ln_le_mono; [lra|]. nra.
Qed.

Lemma d_1 : d_iter (init_state [d_feature] loss (at_preds s s)) =
  Ok (d_st u 1 0 false false [1 / 5 * a; 1 / 5 * a] [0; 0] [1 / 5 * a; 1 / 5 * a] lu ((l0 - lu) / l0) (- (1 / 5 * a))).
Proof. setup. comp. dsteps. dmatch. lra. Qed.
Lemma d_2 : exists lc dl, d_iter (d_st u 1 0 false false [1 / 5 * a; 1 / 5 * a] [0; 0] [1 / 5 * a; 1 / 5 * a] lu ((l0 - lu) / l0) (- (1 / 5 * a))) =
  Ok (d_st u 2 1 true false [2 / 5 * b; 2 / 5 * b] [1 / 5 * a; 1 / 5 * a] [1 / 5 * a; 1 / 5 * a] l1 lc dl).
Proof. setup. do 2 eexists. comp. dsteps. dmatch. Qed.
Lemma d_3 lc dl : exists lc' dl', d_iter (d_st u 2 1 true false [2 / 5 * b; 2 / 5 * b] [1 / 5 * a; 1 / 5 * a] [1 / 5 * a; 1 / 5 * a] l1 lc dl) =
  Ok (d_st u 3 2 true false [3 / 5 * b; 3 / 5 * b] [2 / 5 * b; 2 / 5 * b] [1 / 5 * a; 1 / 5 * a] l2 lc' dl').
Proof. setup. pose proof ln_step. do 2 eexists. comp. dsteps. dmatch. Qed.
Lemma d_4 lc dl : d_iter (d_st u 3 2 true false [3 / 5 * b; 3 / 5 * b] [2 / 5 * b; 2 / 5 * b] [1 / 5 * a; 1 / 5 * a] l2 lc dl) =
  Ok (d_st s 4 2 false true [- (1 / 5 * a); - (1 / 5 * a)] [3 / 5 * b; 3 / 5 * b] [0; 0] l0 ((l2 - l0) / l2) (- (1 / 5 * a) - 3 / 5 * b)).
Proof. setup. pose proof ln_step. comp. dsteps. dmatch. lra. Qed.
Lemma d_again n d x y old lc dl : (4 <= n)%nat -> d = 2%nat \/ d = 3%nat ->
  exists lc' dl', d_iter (d_st s n d false true [x; y] old [0; 0] l0 lc dl) = Ok (d_st s (S n) (S d) true true [0; a] [x; y] [0; 0] l4 lc' dl').
Proof. intros Hn Hd. setup. destruct Hd as [-> | ->]; do 2 eexists; comp; dsteps; dmatch. Qed.
Lemma d_end n x y old lc dl : (4 <= n)%nat -> d_iter (d_st s n 4 false true [x; y] old [0; 0] l0 lc dl) = Raise ConvergenceError.
Proof. intro Hn. setup. comp. dsteps. reflexivity. Qed.
Lemma d_reset n d old lc dl : (4 <= n)%nat -> d = 3%nat \/ d = 4%nat ->
  d_iter (d_st s n d true true [0; a] old [0; 0] l4 lc dl) = Ok (d_st s (S n) d false true [0; 0] [0; a] [0; 0] l0 ((l4 - l0) / l4) (- a / 2)).
Proof. intros Hn Hd. setup. destruct Hd as [-> | ->]; comp; dsteps; dmatch; lra. Qed.

Lemma d_wait p n d z fac old agg lo lc dl : continues d_cfg (d_st p n d true z fac old agg lo lc dl) = true.
Proof. unfold continues. cbn [t_isdiv d_st]. apply orb_true_r. Qed.
Lemma d_goes p n d z fac old agg lo lc dl : (n < 10)%nat -> 1 / 1000000 < lc -> 1 / 10000 < dl ->
  continues d_cfg (d_st p n d false z fac old agg lo lc dl) = true.
Proof.
  intros Hn P Q. unfold continues, check_stop, stop_iterations, stop_factor_change, stop_loss_change.
  cbn [t_iter t_delta t_losschange t_isdiv d_st c_maxiter c_minfactor c_minloss d_cfg].
  rewrite (proj2 (Nat.leb_gt 10 n) Hn), (proj2 (Rleb_false _ _)) by exact Q.
  rewrite (proj2 (Rleb_false _ _)); [reflexivity|]. rewrite Rabs_pos_eq by lra. lra.
Qed.
Lemma half l : 2 * l0 < l -> 1 / 1000000 < (l - l0) / l.
Proof. intro P. apply (Rmult_lt_reg_r l); [lra|]. unfold Rdiv at 2. rewrite Rmult_assoc, Rinv_l by lra. lra. Qed.
Lemma better : 1 / 1000000 < (l0 - lu) / l0.
Proof. apply (Rmult_lt_reg_r l0); [lra|]. unfold Rdiv at 2. rewrite Rmult_assoc, Rinv_l by lra. lra. Qed.
Lemma d_starts fl p : continues d_cfg (init_state fl loss p) = true.
Proof.
  unfold continues, check_stop, stop_iterations, stop_factor_change, stop_loss_change, init_state.
  cbn [t_delta t_losschange t_iter c_maxiter c_minfactor c_minloss d_cfg Nat.leb]. rewrite (proj2 (Rleb_false _ _)) by lra.
  rewrite (proj2 (Rleb_false _ _)); [reflexivity|]. rewrite Rabs_pos_eq; [|apply IZR_le; lia].
  apply (Rlt_le_trans _ 1); [lra|]. apply IZR_le. lia.
Qed.

Lemma d_run : fit_main d_cfg [d_feature] calc smooth ex_id rate loss 9 (at_preds s s) = Some (Raise ConvergenceError).
Proof.
  unfold fit_main. rewrite L0. pose proof better. pose proof (half l2 P2). pose proof (half l4 P4).
  erewrite loop_step; [|apply d_starts|exact d_1].
  destruct d_2 as (? & ? & E). erewrite loop_step; [|apply d_goes; [lia|lra|lra]|exact E]. clear E.
  edestruct d_3 as (? & ? & E). erewrite loop_step; [|apply d_wait|exact E]. clear E.
  erewrite loop_step; [|apply d_wait|apply d_4].
  edestruct (d_again 4 2) as (? & ? & E); [lia|auto|]. erewrite loop_step; [|apply d_goes; [lia|lra|lra]|exact E]. clear E.
  erewrite loop_step; [|apply d_wait|apply d_reset; [lia|auto]].
  edestruct (d_again 6 3) as (? & ? & E); [lia|auto|]. erewrite loop_step; [|apply d_goes; [lia|lra|lra]|exact E]. clear E.
  erewrite loop_step; [|apply d_wait|apply d_reset; [lia|auto]].
  apply loop_raise; [apply d_goes; [lia|lra|lra]|apply d_end; lia].
Qed.
End Stuck.

(** ** The training *)
Definition d_sample (q : fnum) : sample := {| x_bins := fun _ => [q]; x_prior := None; x_y := 10; x_w := 1 |}.
Definition tens : list sample := [d_sample (Fin 0); d_sample NaN].

Lemma tens_scale : kind_scale PoissonRegressor (map x_y tens) (map x_w tens) = Some (ln (10001 / 1000)).
Proof.
  cbn [kind_scale kind_link]. unfold global_scale.
  rewrite (proj2 (weighted_mean_some _ _ 10)).
  - unfold link_func. rewrite (proj2 (Rltb_iff _ _)) by lra. do 2 f_equal. lra.
  - cbn [tens d_sample map x_y x_w sumR]. split; [lra|]. unfold is_weighted_mean. cbn. lra.
Qed.

Section Tens.
Variables (gm : R -> R) (bppf : R -> R -> R -> R) (erfinv : R -> R) (bad : R) (g : group).
Hypothesis G : 11668 / 1000 < gm 12 < 11669 / 1000.
Hypothesis Gd : g_dim g = 1%nat.
Hypothesis Gh : g_hier g = false.
Hypothesis Gm : g_mnl g = false.
Hypothesis Gs : forall c u v, g_smoother g c [1] [u] [v] 0%nat = Some v.
Notation y := (map x_y tens).
Notation w := (map x_w tens).
Notation fl := (bind_groups tens 0 [g]).
Notation q := (gm 12 / (10001 / 1000 + 167834 / 100000)).
Notation s0 := (ln (10001 / 1000)).

Lemma tens_feature : fl = [d_feature].
Proof. cbn. unfold bind_group. rewrite Gd, Gh, Gm. reflexivity. Qed.
Lemma q_bounds : 99902 / 100000 < q < 99912 / 100000.
Proof.
  split; apply (Rmult_lt_reg_r (10001 / 1000 + 167834 / 100000)); try lra; unfold Rdiv at 2; rewrite ?Rmult_assoc, ?Rinv_l by lra; lra.
Qed.
Lemma ln_range x : 0 < x -> 1 - / x <= ln x <= x - 1.
Proof.
  intro P. split.
  - pose proof (exp_ineq1_le (- ln x)) as H. rewrite exp_Ropp, exp_ln in H by exact P. lra.
  - pose proof (exp_ineq1_le (ln x)) as H. rewrite exp_ln in H by exact P. lra.
Qed.
Lemma exp_range x : x <= 0 -> 1 + x <= exp x /\ exp x * (1 - x) <= 1.
Proof.
  intro N. split; [apply exp_ineq1_le|]. pose proof (exp_ineq1_le (- x)) as H. pose proof (exp_pos x).
  assert (E : exp x * exp (- x) = 1) by (rewrite <- exp_plus, Rplus_opp_r; apply exp_0). nra.
Qed.
Lemma ratio_range lo hi x d : 0 < d -> lo * d < x < hi * d -> lo < x / d < hi.
Proof.
  intros P (A & B). assert (E : x / d * d = x) by (field; lra). split; apply (Rmult_lt_reg_r d); try exact P; rewrite E; assumption.
Qed.
Lemma inv_range x lo : 0 < lo -> lo < x -> 0 < / x < / lo.
Proof. intros L H. split; [apply Rinv_0_lt_compat; lra|apply Rinv_lt_contravar; [nra|exact H]]. Qed.

Lemma a_bounds : - (982 / 1000000) <= ln q <= - (88 / 100000).
Proof.
  pose proof q_bounds as (B1 & B2). destruct (ln_range q ltac:(lra)) as (L1 & L2). pose proof (inv_range q (99902 / 100000) ltac:(lra) B1). lra.
Qed.
Notation u0 := (s0 + 1 / 5 * ln q).
Lemma exp_u0 : 999903 / 100000 < exp u0 < 99993 / 10000.
Proof.
  pose proof a_bounds as (A1 & A2). rewrite exp_plus, exp_ln by lra.
  destruct (exp_range (1 / 5 * ln q) ltac:(lra)) as (E1 & E2). set (x := exp (1 / 5 * ln q)) in *. set (a := ln q) in *. clearbody x a. split; nra.
Qed.
Notation q2 := (gm 12 / (exp u0 + 167834 / 100000)).
Lemma b_bounds : - (10 / 10000) <= ln q2 <= - (6 / 10000).
Proof.
  pose proof exp_u0 as (U1 & U2). set (e := exp u0) in *. clearbody e.
  assert (B : 9991 / 10000 < gm 12 / (e + 167834 / 100000) < 99940 / 100000).
  { apply ratio_range; lra. }
  destruct B as (B1 & B2). destruct (ln_range (gm 12 / (e + 167834 / 100000)) ltac:(lra)) as (L1 & L2).
  pose proof (inv_range _ (9991 / 10000) ltac:(lra) B1). lra.
Qed.
Lemma exp_worse r : 2 / 5 <= r -> exp (u0 + r * ln q2) < 9998 / 1000.
Proof.
  intro Hr. pose proof exp_u0 as (U1 & U2). pose proof b_bounds as (B1 & B2). rewrite exp_plus.
  assert (Z : forall b, b <= - (6 / 10000) -> r * b <= - (24 / 100000)) by (intros b Hb; nra).
  specialize (Z (ln q2) B2). set (z := r * ln q2) in *. destruct (exp_range z ltac:(lra)) as (_ & E2). pose proof (exp_pos z) as P.
  set (x := exp z) in *. set (e := exp u0) in *. clearbody x e z.
  assert (X : x * (100024 / 100000) <= 1) by (apply (Rle_trans _ (x * (1 - z))); [apply Rmult_le_compat_l; lra|exact E2]).
  assert (E : e * x <= 99993 / 10000 * x) by (apply Rmult_le_compat_r; lra). lra.
Qed.
Lemma tens_estimates x it : let p := at_preds x x in
  (fun i (_ : nat) p => map (estimate_value bad) (group_estimates gm bppf erfinv PoissonRegressor [d_feature] y w i p)) 0%nat it p =
  [ln (gm 12 / (exp x + 167834 / 100000)); ln (gm 12 / (exp x + 167834 / 100000))] \/ 100 < exp x.
Proof.
  destruct (Rlt_le_dec 100 (exp x)) as [H|H]; [right; exact H|left].
  cbv beta. unfold group_estimates. cbn [nth_error]. change (f_lex d_feature) with [0; 1]%nat. change (f_finite d_feature) with 1%nat.
  unfold estimates, poisson_parameters, poisson_precalc, calc_factors_and_uncertainties. cbv zeta.
  cbn [tens d_sample map x_y x_w at_preds p_factors map2 unlink_func].
  unfold bincounts, factor_from_posterior, posterior_estimate, gamma_alpha_prior, gamma_beta_prior. cbn.
  replace (10 * 1 + (0 + 0) + 2) with 12 by lra. replace (0 + (10 * 1 + 0) + 2) with 12 by lra.
  replace (1 * exp x + (0 + 0) + 167834 / 100000) with (exp x + 167834 / 100000) by lra.
  replace (0 + (1 * exp x + 0) + 167834 / 100000) with (exp x + 167834 / 100000) by lra.
  rewrite !(proj2 (Rleb_iff _ _)) by lra. reflexivity.
Qed.
Lemma tens_loss u v : kind_loss bad PoissonRegressor y w [u; v] = ((exp u - 10) * (exp u - 10) + (exp v - 10) * (exp v - 10)) / 2.
Proof. unfold kind_loss, squared_loss. cbn. field. Qed.
Lemma tens_smoother it p v : group_smoother gm bppf erfinv bad PoissonRegressor [g] [d_feature] y w it p [v] 0 = match it with O => Some v | _ => None end.
Proof.
  destruct it as [|[|it]]; try reflexivity.
  unfold group_smoother. cbn [nth_error]. change (f_lex d_feature) with [0; 1]%nat. change (f_finite d_feature) with 1%nat.
  match goal with |- context [firstn 1 ?l] => destruct l as [|u l'] eqn:EL end; [apply (f_equal (@length R)) in EL; discriminate|].
  cbn [firstn]. replace (bincounts [0; 1]%nat w 1) with [1]; [apply Gs|]. cbn. f_equal. lra.
Qed.

Theorem gives_up : whole_fit gm bppf erfinv bad PoissonRegressor false [g] d_cfg d_rate 9 tens = Failed ConvergenceError.
Proof.
  unfold whole_fit. rewrite tens_scale. cbv zeta. unfold train. cbv zeta. cbn [linked_column prior_predictions]. rewrite tens_feature.
  change {| p_factors := repeat s0 (length tens); p_exponents := zeros (length tens) |} with (at_preds s0 s0).
  pose proof a_bounds as AB. pose proof b_bounds as BB. pose proof exp_u0 as EU. pose proof q_bounds as QB.
  pose proof d_rates as (R0 & R1 & R2 & R3 & RN).
  erewrite (d_run (fun i (_ : nat) p => map (estimate_value bad) (group_estimates gm bppf erfinv PoissonRegressor [d_feature] y w i p))
    (fun p => kind_loss bad PoissonRegressor y w (p_factors p)) s0 u0 (ln q) (ln q2));
    [reflexivity|lra|lra|reflexivity| | | | |exact R0|exact R1|exact R2|exact R3|exact RN|reflexivity|reflexivity|reflexivity|reflexivity|reflexivity|reflexivity| | | | | |].
  - intro it. destruct (tens_estimates s0 it) as [E|E]; [|rewrite exp_ln in E by lra; lra]. cbv zeta beta in E |- *. rewrite E, exp_ln by lra. reflexivity.
  - intro it. destruct (tens_estimates u0 it) as [E|E]; [|lra]. exact E.
  - intro it. apply tens_smoother.
  - intro it. apply tens_smoother.
  - cbn [at_preds p_factors]. rewrite tens_loss, exp_ln by lra. lra.
  - cbn [at_preds p_factors]. rewrite !tens_loss, (exp_ln (10001 / 1000)) by lra. set (e := exp u0) in *. clearbody e. split; nra.
  - cbn [at_preds p_factors]. rewrite !tens_loss, (exp_ln (10001 / 1000)) by lra. pose proof (exp_worse (2 / 5) ltac:(lra)). set (e := exp _) in *. clearbody e. nra.
  - cbn [at_preds p_factors]. rewrite !tens_loss, (exp_ln (10001 / 1000)) by lra. pose proof (exp_worse (3 / 5) ltac:(lra)). set (e := exp _) in *. clearbody e. nra.
  - cbn [at_preds p_factors]. rewrite !tens_loss, (exp_ln (10001 / 1000)) by lra. pose proof (exp_worse (4 / 5) ltac:(lra)). set (e := exp _) in *. clearbody e. nra.
  - cbn [at_preds p_factors]. rewrite !tens_loss, (exp_ln (10001 / 1000)) by lra. rewrite Rmult_0_r, Rplus_0_r, exp_plus, !exp_ln by lra.
    assert (10001 / 1000 * q < 9993 / 1000) by lra. set (e := 10001 / 1000 * q) in *. clearbody e. nra.
Qed.
End Tens.

Lemma values_group c u v : bin_values c [1] [u] [v] 0%nat = Some v.
Proof. reflexivity. Qed.
Lemma default_group c u v : default_unordered c [1] [u] [v] 0%nat = Some v.
Proof.
  unfold default_unordered, cut_unseen. cbn [nth]. rewrite (proj2 (Reqb_false_iff _ _)) by lra.
  unfold normalised, bins_norm. cbv zeta. cbn [sumR map2 map]. rewrite (proj2 (Rltb_iff _ _)) by lra.
  replace (v - (v * 1 + 0) / (1 + 0)) with 0 by field. unfold weighted_mean_bins.
  rewrite RegularizeFacts.mean_unchanged; [cbn; f_equal; field|reflexivity|].
  intros x [<-|[]]. rewrite Rminus_0_r, Rabs_R0. lra.
Qed.

(** ** A training that returns to the baseline *)
Definition e_feature : feature := {| f_dim := 1; f_rows := [[Fin 0%Q]]; f_hier := false; f_mnl := true; f_ext := false |}.
Section Settles.
Variables (calc : nat -> nat -> preds -> list R) (loss : preds -> R) (s a b l0 l1 : R).
Hypothesis HA : - (1 / 4) <= a <= - (6 / 10000).
Hypothesis HB : b + ln (8 / 10) <= 0 <= b + ln (12 / 10).
Hypothesis HC : forall it, calc 0%nat it (st_preds s) = [a; b].
Hypothesis L0 : loss (st_preds s) = l0.
Hypothesis L1 : loss (st_preds (s + a)) = l1.
Hypothesis P0 : 0 < l0.
Hypothesis P1 : 2 * l0 < l1.
Variable smooth : nat -> nat -> preds -> list R -> nat -> option R.
Hypothesis HM : forall it, smooth 0%nat it (st_preds s) [a] 0%nat = Some a.
Notation e_iter := (iteration d_cfg [e_feature] calc smooth ex_id ex_rate loss l0).

Definition e_st (n d : nat) (isd z : bool) (x : R) (old : list R) (lo lc dl : R) : state := {|
  t_preds := st_preds s;
  t_feats := [{| s_fitted := true; s_factors := [x; 0]; s_old := old; s_agg := Some [0; 0]; s_zero := z |}];
  t_iter := n; t_diverging := d; t_isdiv := isd; t_loss := lo; t_losschange := lc; t_delta := dl |}.

Lemma e_zero_add : s + - 0 = s. Proof. lra. Qed.
Lemma e_one_add : s + 1 * 0 = s. Proof. lra. Qed.
Ltac eknown := first [rewrite HC | rewrite HM | rewrite L0 | rewrite L1 | rewrite e_zero_add | rewrite e_one_add | rewrite (Rmult_1_l a) | rewrite (Rmult_1_r a)].
Ltac enonzero := match goal with |- context [Reqb ?x ?y] => rewrite (proj2 (Reqb_false_iff x y)) by lra end.
Ltac esteps := repeat (first [eknown | enonzero | real_step]; comp).
Ltac ematch := apply same_state; [match_up|match_up|try reflexivity|try reflexivity].

Lemma e_first : exists lc dl, e_iter (init_state [e_feature] loss (st_preds s)) = Ok (e_st 1 1 true false a [0; 0] l1 lc dl).
Proof. pose proof ln2_quarter. pose proof ln_facts. unfold st_preds in *. do 2 eexists. comp. esteps. ematch. Qed.
Lemma e_second n old lc dl : exists old' lc' dl', e_iter (e_st n 1 true false a old l1 lc dl) = Ok (e_st (S n) 2 true false a old' l1 lc' dl').
Proof. pose proof ln2_quarter. pose proof ln_facts. unfold st_preds in *. do 3 eexists. comp. esteps. ematch. Qed.
Lemma e_reset n old lc dl : e_iter (e_st n 2 true false a old l1 lc dl) = Ok (e_st (S n) 2 false true 0 [a; 0] l0 ((l1 - l0) / l1) (- a / 2)).
Proof. pose proof ln2_quarter. pose proof ln_facts. unfold st_preds in *. comp. esteps. ematch. lra. Qed.
Lemma e_rest n old lc dl : e_iter (e_st n 2 false true 0 old l0 lc dl) = Ok (e_st (S n) 2 false true 0 [0; 0] l0 0 0).
Proof. pose proof ln2_quarter. pose proof ln_facts. unfold st_preds in *. comp. esteps. ematch; lra. Qed.

Lemma e_run : fit_main d_cfg [e_feature] calc smooth ex_id ex_rate loss 4 (st_preds s) = Some (Ok (e_st 4 2 false true 0 [0; 0] l0 0 0)).
Proof.
  unfold fit_main. rewrite L0.
  assert (W : forall n d z x old lo lc dl, continues d_cfg (e_st n d true z x old lo lc dl) = true) by (intros; unfold continues; cbn [t_isdiv e_st]; apply orb_true_r).
  destruct e_first as (? & ? & E). erewrite loop_step; [| |exact E].
  2:{ unfold continues, check_stop, stop_iterations, stop_factor_change, stop_loss_change, init_state.
      cbn [t_delta t_losschange t_iter c_maxiter c_minfactor c_minloss d_cfg Nat.leb]. rewrite (proj2 (Rleb_false _ _)) by lra.
      rewrite (proj2 (Rleb_false _ _)); [reflexivity|]. rewrite Rabs_pos_eq; [|apply IZR_le; lia].
      apply (Rlt_le_trans _ 1); [lra|]. apply IZR_le. lia. }
  clear E. destruct (e_second 1 [0; 0] x x0) as (? & ? & ? & E). erewrite loop_step; [|apply W|exact E]. clear E.
  erewrite loop_step; [|apply W|apply e_reset].
  erewrite loop_step; [| |apply e_rest].
  2:{ unfold continues, check_stop, stop_iterations, stop_factor_change, stop_loss_change.
      cbn [t_iter t_delta t_losschange t_isdiv e_st c_maxiter c_minfactor c_minloss d_cfg].
      assert (H : 1 / 1000000 < (l1 - l0) / l1).
      { apply (Rmult_lt_reg_r l1); [lra|]. unfold Rdiv at 2. rewrite Rmult_assoc, Rinv_l by lra. lra. }
      cbn [Nat.leb]. rewrite (proj2 (Rleb_false _ _)) by lra. rewrite (proj2 (Rleb_false _ _)); [reflexivity|]. rewrite Rabs_pos_eq by lra. lra. }
  rewrite loop_end.
  - comp. esteps. reflexivity.
  - unfold continues, check_stop, stop_iterations, stop_factor_change, stop_loss_change, veto_hierarchical.
    cbn [t_iter t_delta t_losschange t_isdiv e_st c_maxiter c_minfactor c_minloss d_cfg c_thier c_hier Nat.leb].
    rewrite (proj2 (Rleb_iff _ _)) by lra. reflexivity.
Qed.
End Settles.

Definition ten : list sample := [d_sample (Fin 0)].
Definition e_group : group := {| g_dim := 1; g_hier := false; g_mnl := true; g_smoother := default_unordered |}.

Lemma ten_scale : kind_scale PoissonRegressor (map x_y ten) (map x_w ten) = Some (ln (10001 / 1000)).
Proof.
  cbn [kind_scale kind_link]. unfold global_scale.
  rewrite (proj2 (weighted_mean_some _ _ 10)).
  - unfold link_func. rewrite (proj2 (Rltb_iff _ _)) by lra. do 2 f_equal. lra.
  - cbn [ten d_sample map x_y x_w sumR]. split; [lra|]. unfold is_weighted_mean. cbn. lra.
Qed.

Lemma ten_run gm bppf erfinv bad : 11668 / 1000 < gm 12 < 11669 / 1000 -> 16 / 10 < gm 2 < 17 / 10 ->
  exists t, whole_fit gm bppf erfinv bad PoissonRegressor false [e_group] d_cfg ex_rate 4 ten = Trained t /\ o_iterations t = 4%nat.
Proof.
  intros G G2. set (q := gm 12 / (10001 / 1000 + 167834 / 100000)). pose proof (q_bounds gm G) as (B1 & B2). fold q in B1, B2.
  unfold whole_fit. rewrite ten_scale. cbv zeta. unfold train. cbv zeta. cbn [linked_column prior_predictions].
  change (bind_groups ten 0 [e_group]) with [e_feature].
  change {| p_factors := repeat (ln (10001 / 1000)) (length ten); p_exponents := zeros (length ten) |} with (st_preds (ln (10001 / 1000))).
  assert (Eq : exp (ln (10001 / 1000) + ln q) = 10001 / 1000 * q) by (rewrite exp_plus, !exp_ln by lra; reflexivity).
  assert (TL : forall u, kind_loss bad PoissonRegressor (map x_y ten) (map x_w ten) [u] = (exp u - 10) * (exp u - 10)).
  { intro u. unfold kind_loss, squared_loss. cbn. field. }
  erewrite (e_run (fun i (_ : nat) p => map (estimate_value bad) (group_estimates gm bppf erfinv PoissonRegressor [e_feature] (map x_y ten) (map x_w ten) i p))
    (fun p => kind_loss bad PoissonRegressor (map x_y ten) (map x_w ten) (p_factors p)) (ln (10001 / 1000)) (ln q) (ln (gm 2 / (167834 / 100000))));
    [eexists; split; reflexivity|pose proof (a_bounds gm G) as AB; fold q in AB; lra| | |reflexivity|reflexivity| | |].
  - assert (0 < gm 2 / (167834 / 100000)) by lra. rewrite <- !ln_mult by lra. pose proof ln_1 as L1. split; rewrite <- L1; apply ln_le_mono; lra.
  - intro it. cbv beta. unfold group_estimates. cbn [nth_error]. change (f_lex e_feature) with [0]%nat. change (f_finite e_feature) with 1%nat.
    unfold estimates, poisson_parameters, poisson_precalc, calc_factors_and_uncertainties. cbv zeta.
    cbn [ten d_sample map x_y x_w st_preds p_factors map2 unlink_func]. rewrite exp_ln by lra.
    unfold bincounts, factor_from_posterior, posterior_estimate, gamma_alpha_prior, gamma_beta_prior. cbn.
    replace (10 * 1 + 0 + 2) with 12 by lra.
    replace (1 * (10001 / 1000) + 0 + 167834 / 100000) with (10001 / 1000 + 167834 / 100000) by lra.
    rewrite (proj2 (Rleb_iff 12 _)) by lra. rewrite (proj2 (Rleb_iff (10001 / 1000 + 167834 / 100000) _)) by lra.
    replace (0 + 0 + 2) with 2 by lra. replace (0 + 0 + 167834 / 100000) with (167834 / 100000) by lra.
    rewrite (proj2 (Rleb_iff 2 _)) by lra. rewrite (proj2 (Rleb_iff (167834 / 100000) _)) by lra. reflexivity.
  - cbn [st_preds p_factors]. rewrite TL, exp_ln by lra. lra.
  - cbn [st_preds p_factors]. rewrite !TL, Eq, exp_ln by lra. assert (10001 / 1000 * q < 9998 / 1000) by lra. nra.
  - intro it. unfold group_smoother. cbn [nth_error]. change (f_lex e_feature) with [0]%nat. change (f_finite e_feature) with 1%nat.
    match goal with |- context [firstn 1 ?l] => destruct l as [|u l'] eqn:EL end; [apply (f_equal (@length R)) in EL; discriminate|].
    cbn [firstn]. replace (bincounts [0]%nat (map x_w ten) 1) with [1]; [apply default_group|]. cbn. f_equal. lra.
Qed.


Lemma sample_binned g D : g_dim g = 1%nat -> (forall s, In s D -> s = d_sample (Fin 0) \/ s = d_sample NaN) -> binned_rows [g] D.
Proof.
  intros Gd H. split; [|split].
  - intros r [|i] g' I G; cbn in G; [|destruct i; discriminate]. injection G as <-. rewrite Gd. destruct (H r I) as [-> | ->]; reflexivity.
  - intros g' [<-|[]]. lia.
  - intros r i x I X. destruct (H r I) as [-> | ->]; cbn in X; destruct X as [<-|[]]; intro F; [exists 0%Z, 0%Q; split; reflexivity|discriminate].
Qed.
Lemma tens_binned : binned_rows [w_group default_unordered] tens.
Proof. apply sample_binned; [reflexivity|]. intros s [<-|[<-|[]]]; auto. Qed.
Lemma ten_binned : binned_rows [e_group] ten.
Proof. apply sample_binned; [reflexivity|]. intros s [<-|[]]; auto. Qed.

Lemma tens_constant : Forall (fun s => 0 <= x_w s) tens /\ Forall (fun s => x_y s = 10) tens /\ total_weight tens <> 0.
Proof. split; [|split]; [repeat constructor; cbn; lra|repeat constructor|unfold total_weight; cbn; lra]. Qed.
Lemma ten_constant : Forall (fun s => 0 <= x_w s) ten /\ Forall (fun s => x_y s = 10) ten /\ total_weight ten <> 0.
Proof. split; [|split]; [repeat constructor; cbn; lra|repeat constructor|unfold total_weight; cbn; lra]. Qed.

Lemma tens_gbs gm bppf erfinv bad : exists t,
  whole_fit gm bppf erfinv bad (GBSRegressor 0) false [w_group default_unordered] w_cfg ex_rate 1 tens = Trained t.
Proof.
  destruct tens_constant as (HW & HC & HT).
  assert (HK : Forall (fun g => keeps_zero (g_smoother g)) [w_group default_unordered]) by (repeat constructor; exact default_keeps).
  eexists. apply (one_pass gm bppf erfinv bad (GBSRegressor 0) false (w_group default_unordered) ex_rate tens 10 0 _ _ _
    (const_scale 0 tens 10 HC HT) eq_refl eq_refl eq_refl eq_refl).
  cbn [linked_column prior_predictions p_factors].
  rewrite null_vadd_keep.
  - pose proof (const_loss bad 0 tens 10 HC ltac:(lra) HT) as L. cbv beta in L. cbn [p_factors] in L. rewrite L. lra.
  - reflexivity.
  - apply null_gather.
    exact (const_factors gm bppf erfinv bad 0 [w_group default_unordered] w_cfg ex_rate tens 10 ltac:(lra) HW HC HK 0 _ _ 0 eq_refl).
Qed.
