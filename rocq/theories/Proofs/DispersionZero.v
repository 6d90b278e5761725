(** A row of weight zero changes what the dispersion estimator learns. *)
From Coq Require Import ZArith QArith List Bool Reals Lra Lia.
From Verif.Model Require Import Num LexBins Train Predict Link Estimators WholeFit Regularize BinSmoothers Dispersion BinFit.
From Verif.Spec Require Import DataSpec BinFitSpec ZeroWeightSpec.
From Verif.Proofs Require Import TrainFacts LinkFacts TrainExamples WholeExamples BinFitExamples ZeroWeightExamples.
Import ListNotations.
Local Open Scope R_scope.

(** Two rows with target 0 and mean 1 in the same bin, the second one without weight. *)
Definition z_row (w : R) : mean_row := (w_row 0 0 w, 1).
Definition z_both : list mean_row := [z_row 1; z_row 0].
Definition z_one : list mean_row := [z_row 1].
Definition z_smoother : bin_smoother := cut_unseen (one_bins (5/4)).

Section Run.
Variable lgamma : R -> option R.
Hypothesis lg_pos : forall x, 0 < x -> lgamma x <> None.
Hypothesis lg_one : lgamma 1 = Some 0.
Notation est := (dispersion_estimate lgamma 0 false 1 0).

Lemma d_step_value : d_step = 1/1000.
Proof.
  unfold d_step. replace (-3) with (- INR 3) by (cbn; lra). rewrite Rpower_Ropp, Rpower_pow by lra. field.
Qed.
Lemma est_small rows : - (1/1000) <= fst (est rows) <= 1/1000.
Proof.
  unfold dispersion_estimate. cbv zeta. unfold calc_parameters, calc_parameters_nbinom_c. rewrite d_links. cbn [seq map nth fst].
  rewrite d_step_value. set (i := argmin _). clearbody i. destruct i as [|[|[|i]]]; cbn [nth]; try lra. destruct i; cbn [nth]; lra.
Qed.

(** The loss of such rows for dispersion [c]. *)
Lemma zero_loss c : 1/2 <= c < 1 ->
  match nbinom_log_pmf lgamma 0 (nb_n 1 c) (nb_p 1 c) with Some l => - l | None => 400 end + 0 * Rabs c = ln (1 + c) / c.
Proof.
  intros C. assert (P : nb_p 1 c = 1 / (1 + c)).
  { unfold nb_p. replace (1 + c * 1) with (1 + c) by ring. apply Rmin_left.
    apply (Rmult_le_reg_r (1 + c)); [lra|]. unfold Rdiv at 1. rewrite Rmult_assoc, Rinv_l by lra. lra. }
  assert (N : nb_n 1 c = 1 / c). { unfold nb_n. rewrite P. field. lra. }
  assert (P0 : 0 < 1 / (1 + c)) by (apply Rdiv_lt_0_compat; lra).
  assert (P1 : 0 < 1 - 1 / (1 + c)). { replace (1 - 1 / (1 + c)) with (c / (1 + c)) by (field; lra). apply Rdiv_lt_0_compat; lra. }
  assert (N0 : 0 < 1 / c) by (apply Rdiv_lt_0_compat; lra).
  rewrite P, N. unfold nbinom_log_pmf, log_of. rewrite Rplus_0_r, Rplus_0_l, lg_one.
  rewrite (proj2 (Rltb_iff _ _) P0), (proj2 (Rltb_iff _ _) P1).
  pose proof (lg_pos (1 / c) N0) as L. destruct (lgamma (1 / c)) as [l|]; [|congruence].
  replace (1 / (1 + c)) with (/ (1 + c)) by (unfold Rdiv; ring). rewrite ln_Rinv by lra. field. lra.
Qed.

Lemma half_loss : 1/3 <= ln (3/2).
Proof. pose proof (exp_ineq1_le (- ln (3/2))) as H. rewrite exp_Ropp, exp_ln in H by lra. replace (/ (3/2)) with (2/3) in H by field. lra. Qed.
Lemma small_loss c : 1/2 <= c -> ln (1 + c) / c <= 1.
Proof.
  intro C. assert (H : ln (1 + c) <= c).
  { pose proof (exp_ineq1_le c) as H. rewrite <- (ln_exp c) at 2. destruct H as [H|H]; [left; apply ln_increasing; lra|rewrite <- H; lra]. }
  apply (Rmult_le_reg_r c); [lra|]. unfold Rdiv. rewrite Rmult_assoc, Rinv_l by lra. lra.
Qed.
Lemma sigmoid_range x : 0 <= x -> 1/2 <= unlink_func Logit x < 1.
Proof.
  intro X. change (unlink_func Logit x) with (sigmoid x). pose proof (sigmoid_up 0 x X) as [_ H]. split.
  - unfold sigmoid at 1 in H. rewrite Ropp_0, exp_0 in H. lra.
  - unfold sigmoid. pose proof (exp_pos (- x)). apply (Rmult_lt_reg_r (1 + exp (- x))); [lra|].
    unfold Rdiv. rewrite Rmult_assoc, Rinv_l by lra. lra.
Qed.

Lemma loss_bound v (n : nat) : 0 <= v -> forall D, D = z_both \/ D = z_one ->
  dispersion_loss lgamma 0 (combine D (map (fun _ => 0 + v) D)) <= dispersion_loss lgamma 0 (combine D (map (fun _ => 0) D)) * 2.
Proof.
  intros V D H. pose proof (sigmoid_range (0 + v) ltac:(lra)) as R1. pose proof (sigmoid_range 0 ltac:(lra)) as R0.
  pose proof (zero_loss _ R1) as L1. pose proof (zero_loss _ R0) as L0. pose proof (small_loss _ (proj1 R1)) as S1.
  assert (E0 : unlink_func Logit 0 = 1/2). { change (unlink_func Logit 0) with (sigmoid 0). unfold sigmoid. rewrite Ropp_0, exp_0. field. }
  pose proof half_loss as HL.
  assert (S0 : 2/3 <= ln (1 + unlink_func Logit 0) / unlink_func Logit 0).
  { rewrite E0. replace (1 + 1/2) with (3/2) by field. unfold Rdiv at 2. replace (/ (1 / 2)) with 2 by field. lra. }
  unfold dispersion_loss, loss_nbinom_c, mean.
  destruct H as [-> | ->]; cbn [z_both z_one z_row w_row map combine fst snd x_y sumR length INR]; rewrite L1, L0; lra.
Qed.

(** The smoothed value of the bin. *)
Lemma one_row_value e : - (1/1000) <= e <= 1/1000 -> regularize_to_prior_expectation e (1 / sqrt 1) 1 (5/4) = Some 1.
Proof.
  intro E. rewrite sqrt_1. unfold regularize_to_prior_expectation. rewrite (proj2 (Reqb_false_iff _ _)) by lra. cbv zeta.
  replace ((e - 1) / (1 / 1)) with (e - 1) by field. rewrite (proj2 (Rltb_false _ _)); [f_equal; ring|]. rewrite Rabs_left by lra. lra.
Qed.
Lemma two_rows_value e : - (1/1000) <= e <= 1/1000 ->
  exists v, regularize_to_prior_expectation e (1 / sqrt 2) 1 (5/4) = Some v /\ 0 <= v < 1.
Proof.
  intro E. pose proof (sqrt_sqrt 2 ltac:(lra)) as Q. assert (S : 14/10 < sqrt 2 < 15/10).
  { pose proof (sqrt_pos 2). split; nra. }
  set (r := sqrt 2) in *. clearbody r. unfold regularize_to_prior_expectation.
  assert (U : 0 < 1 / r) by (apply Rdiv_lt_0_compat; lra). rewrite (proj2 (Reqb_false_iff _ _)) by lra. cbv zeta.
  replace ((e - 1) / (1 / r)) with ((e - 1) * r) by (field; lra).
  assert (N : (e - 1) * r < 0) by nra.
  rewrite (proj2 (Rltb_iff _ _)) by (rewrite Rabs_left by exact N; nra).
  unfold np_sign. rewrite (proj2 (Rltb_false 0 _)) by lra. rewrite (proj2 (Rltb_iff _ 0) N).
  assert (D : 0 < ((e - 1) * r) ^ 2 - (5/4) ^ 2) by nra. rewrite (Rabs_pos_eq (((e - 1) * r) ^ 2 - (5/4) ^ 2)) by lra.
  eexists. split; [reflexivity|]. set (x := ((e - 1) * r) ^ 2 - (5/4) ^ 2) in *.
  assert (X : x <= 1) by (unfold x; nra). clearbody x.
  pose proof (sqrt_lt_R0 x D) as S0. assert (S1 : sqrt x <= 1) by (rewrite <- sqrt_1; apply sqrt_le_1_alt; exact X).
  assert (U1 : 1 / r < 1) by (apply (Rmult_lt_reg_r r); [lra|]; unfold Rdiv; rewrite Rmult_assoc, Rinv_l by lra; lra).
  nra.
Qed.

Definition z_model (v m l : R) : model :=
  {| o_scale := 0; o_offset := 0;
     o_groups := [{| m_dim := 1; m_nbins := [1%Z]; m_ext := false; m_values := [v]; m_missing := m; m_smoother := true |}];
     o_iterations := 1; o_loss := l |}.
Lemma both_fit : exists v m l, 0 <= v < 1 /\
  dispersion_fit lgamma 0 false 1 false [w_group z_smoother] w_cfg ex_rate 1 z_both = Trained (z_model v m l).
Proof.
  set (rows := [(z_row 1, 0); (z_row 0, 0)]).
  assert (SD : snd (est rows) = 1 / sqrt 2) by (rewrite dispersion_counts by discriminate; reflexivity).
  pose proof (est_small rows) as E. destruct (two_rows_value _ E) as (v & EV & V).
  exists v, (fst (est [])). eexists. split; [exact V|].
  unfold dispersion_fit.
  erewrite (bin_pass mean_row _ _ _ _ _ (w_group z_smoother) ex_rate 0 0 z_both [v; fst (est [])] [0 + v; 0 + v]).
  - unfold z_model. f_equal.
  - unfold new_factors, bin_smoothing, bin_estimates. cbv zeta. cbn [nth_error].
    set (f := bind_row_group _ _ _ _ _). assert (L : f_lex f = [0; 0]%nat) by reflexivity. assert (F : f_finite f = 1%nat) by reflexivity.
    rewrite F, L. cbn [seq map]. unfold ex_rate.
    match goal with |- context [bin_content mean_row _ ?l 0] => set (B := l) end.
    assert (B0 : bin_content mean_row [0; 0]%nat B 0 = rows) by reflexivity.
    assert (B1 : bin_content mean_row [0; 0]%nat B 1 = []) by reflexivity.
    rewrite B0, B1, SD. cbn [snd s_zero init_fstate]. change (f_mnl f) with false. cbn iota.
    cbn [w_group g_smoother firstn nth]. unfold z_smoother, cut_unseen, one_bins, prior_expectation_bins. cbn [map2 nth].
    rewrite EV. unfold bincounts. cbn [map seq nth bin_total Nat.eqb fst snd z_both z_row w_row x_w].
    rewrite (proj2 (Reqb_false_iff _ _)) by lra. cbn [app]. repeat (f_equal; try lra).
  - cbn. repeat (f_equal; try lra).
  - apply (loss_bound v 0 (proj1 V) z_both). auto.
Qed.
Lemma one_fit : exists m l, dispersion_fit lgamma 0 false 1 false [w_group z_smoother] w_cfg ex_rate 1 z_one = Trained (z_model 1 m l).
Proof.
  set (rows := [(z_row 1, 0)]).
  assert (SD : snd (est rows) = 1 / sqrt 1) by (rewrite dispersion_counts by discriminate; reflexivity).
  pose proof (est_small rows) as E. pose proof (one_row_value _ E) as EV.
  exists (fst (est [])). eexists. 
  unfold dispersion_fit.
  erewrite (bin_pass mean_row _ _ _ _ _ (w_group z_smoother) ex_rate 0 0 z_one [1; fst (est [])] [0 + 1]).
  - unfold z_model. f_equal.
  - unfold new_factors, bin_smoothing, bin_estimates. cbv zeta. cbn [nth_error].
    set (f := bind_row_group _ _ _ _ _). assert (L : f_lex f = [0]%nat) by reflexivity. assert (F : f_finite f = 1%nat) by reflexivity.
    rewrite F, L. cbn [seq map]. unfold ex_rate.
    match goal with |- context [bin_content mean_row _ ?l 0] => set (B := l) end.
    assert (B0 : bin_content mean_row [0]%nat B 0 = rows) by reflexivity.
    assert (B1 : bin_content mean_row [0]%nat B 1 = []) by reflexivity.
    rewrite B0, B1, SD. cbn [snd s_zero init_fstate]. change (f_mnl f) with false. cbn iota.
    cbn [w_group g_smoother firstn nth]. unfold z_smoother, cut_unseen, one_bins, prior_expectation_bins. cbn [map2 nth].
    rewrite EV. unfold bincounts. cbn [map seq nth bin_total Nat.eqb fst snd z_one z_row w_row x_w].
    rewrite (proj2 (Reqb_false_iff _ _)) by lra. cbn [app]. repeat (f_equal; try lra).
  - cbn. repeat (f_equal; try lra).
  - apply (loss_bound 1 0 ltac:(lra) z_one). auto.
Qed.
End Run.

Theorem dispersion_zero_weight lgamma : (forall x, 0 < x -> lgamma x <> None) -> lgamma 1 = Some 0 ->
  exists gs cfg rate fuel D t t' x, covered (map fst D) /\
    dispersion_fit lgamma 0 false 1 false gs cfg rate fuel D = Trained t /\
    dispersion_fit lgamma 0 false 1 false gs cfg rate fuel (filter (fun r => negb (Reqb (x_w (fst r)) 0)) D) = Trained t' /\
    dispersion_predict false t [x] <> dispersion_predict false t' [x].
Proof.
  intros LP L1. destruct (both_fit lgamma LP L1) as (v & m & l & V & T). destruct (one_fit lgamma LP L1) as (m' & l' & T').
  exists [w_group z_smoother], w_cfg, ex_rate, 1%nat, z_both, (z_model v m l), (z_model 1 m' l'), (fst (z_row 1)).
  assert (W : filter (fun r : mean_row => negb (Reqb (x_w (fst r)) 0)) z_both = z_one).
  { unfold z_both. cbn [filter z_row w_row x_w fst]. rewrite (proj2 (Reqb_false_iff 1 0)) by lra. rewrite (proj2 (Reqb_iff 0 0)) by auto. reflexivity. }
  split; [|split; [exact T|split; [change (filter _ z_both) with (filter (fun r : mean_row => negb (Reqb (x_w (fst r)) 0)) z_both); rewrite W; exact T'|]]].
  - intros s i I. exists (fst (z_row 1)). split.
    + unfold weighty, z_both. cbn [map filter z_row w_row x_w fst]. rewrite (proj2 (Reqb_false_iff 1 0)) by lra. left. reflexivity.
    + destruct I as [<-|[<-|[]]]; reflexivity.
  - intro E. assert (P : forall v m l, dispersion_predict false (z_model v m l) [fst (z_row 1)] = [sigmoid (0 + v)]).
    { intros a b c. cbn. unfold sigmoid. repeat (f_equal; try lra). }
    rewrite !P in E. injection E as E. unfold sigmoid in E.
    pose proof (exp_pos (- (0 + v))). pose proof (exp_pos (- (0 + 1))).
    assert (X : exp (- (0 + 1)) < exp (- (0 + v))) by (apply exp_increasing; lra).
    unfold Rdiv in E. rewrite !Rmult_1_l in E. apply (f_equal Rinv) in E. rewrite !Rinv_inv in E. lra.
Qed.
