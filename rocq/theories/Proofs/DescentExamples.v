(** Trainings of the background subtraction regressor: one whose loss falls, and one whose
    loss rises because of the default smoothing. *)
From Coq Require Import ZArith QArith Qround List Bool Reals Lra Lia.
From Verif.Model Require Import Num LexBins Train Predict Link Estimators Gbs WholeFit Regularize BinSmoothers.
From Verif.Spec Require Import DataSpec PredictSpec RegularizeSpec InsampleSpec DescentSpec.
From Verif.Proofs Require Import TrainFacts LinkFacts TrainExamples IsotonicRuns OrderFacts WholeExamples RegularizeFacts InsampleFacts InsampleExamples DescentFacts.
Import ListNotations.
Local Open Scope R_scope.

(** Two rows in one category, four in the other, with large deviations in both. *)
Definition noisy : list sample :=
  [w_row 0 101 1; w_row 0 (-99) 1; w_row 1 (199/2) 1; w_row 1 (-201/2) 1; w_row 1 (199/2) 1; w_row 1 (-201/2) 1].
Definition noisy_group : group := w_group default_unordered.
Definition n_u0 : R := 180006/81.
Definition n_u1 : R := 1000005/625.

Lemma noisy_lex : f_lex (bind_group noisy 0 noisy_group) = [0; 0; 1; 1; 1; 1]%nat /\
  f_finite (bind_group noisy 0 noisy_group) = 2%nat.
Proof. split; reflexivity. Qed.

Lemma noisy_estimates : gbs_parameters 0 [0; 0; 1; 1; 1; 1]%nat 3 (map x_y noisy) (map x_w noisy) [0; 0; 0; 0; 0; 0] =
  [Some (2/3, sqrt n_u0); Some (-2/5, sqrt n_u1); Some (0, 0)].
Proof.
  unfold gbs_parameters, gbs_bin. cbn [noisy map w_row x_y x_w seq map2 bin_total Nat.eqb].
  repeat (match goal with
  | |- context [Reqb ?a 0] => rewrite (proj2 (Reqb_false_iff a 0)) by lra
  | |- context [Rltb ?a 0] => rewrite (proj2 (Rltb_false a 0)) by lra end).
  unfold n_u0, n_u1. f_equal; [|f_equal; [|f_equal]]; apply some_pair; try field.
  1, 2: f_equal; field.
  match goal with |- sqrt ?a = 0 => replace a with 0 by field; apply sqrt_0 end.
Qed.

Definition n_x0 : R := 2/3 - -2/45.
Definition n_x1 : R := -2/5 - -2/45.

Lemma noisy_smoothed : exists r0 r1,
  regularize_to_error_weighted_mean [n_x0; n_x1] [sqrt n_u0; sqrt n_u1] (Some 0) = Some [Some r0; Some r1] /\
  0 <= r0 <= 1/2000 /\ -1/2000 <= r1 <= 0.
Proof.
  assert (Q0 : sqrt n_u0 ^ 2 = n_u0) by (apply pow2_sqrt; unfold n_u0; lra).
  assert (Q1 : sqrt n_u1 ^ 2 = n_u1) by (apply pow2_sqrt; unfold n_u1; lra).
  destruct (mean_amount [n_x0; n_x1] [sqrt n_u0; sqrt n_u1] (Some 0)) as (V & r & EV & PV & E & L & H).
  - reflexivity.
  - intros v [<-|[<-|[]]]; apply sqrt_lt_R0; unfold n_u0, n_u1; lra.
  - intro A. specialize (A n_x0 (or_introl eq_refl)). unfold n_x0 in A. rewrite Rabs_R0, Rabs_pos_eq in A; lra.
  - cbn [length shrinkage_target] in *. destruct r as [|r0 [|r1 [|? ?]]]; cbn in L; try lia. exists r0, r1.
    pose proof (H 0%nat ltac:(lia)) as H0. pose proof (H 1%nat ltac:(lia)) as H1. cbn [nth] in H0, H1. rewrite Q0 in H0. rewrite Q1 in H1.
    unfold total in EV. cbn [seq map sumR nth] in EV. rewrite Q0, Q1 in EV.
    split; [exact E|]. clear E H L Q0 Q1.
    assert (VB : V <= 1/2). { unfold n_x0, n_x1, n_u0, n_u1 in EV. lra. }
    assert (K : forall u, 1000 <= u -> 0 <= V / (u + V) <= 1/2000).
    { intros u Hu. split; [apply Rmult_le_pos; [lra|left; apply Rinv_0_lt_compat; lra]|].
      apply (Rmult_le_reg_r (u + V)); [lra|]. unfold Rdiv at 1. rewrite Rmult_assoc, Rinv_l by lra. lra. }
    pose proof (K n_u0 ltac:(unfold n_u0; lra)) as K0. pose proof (K n_u1 ltac:(unfold n_u1; lra)) as K1.
    set (a := V / (n_u0 + V)) in *. set (b := V / (n_u1 + V)) in *. clearbody a b. unfold n_x0 in H0. unfold n_x1 in H1. lra.
Qed.

Lemma noisy_binned : binned_rows [noisy_group] noisy.
Proof.
  split; [|split].
  - intros r [|i] g I G; cbn in G; [|destruct i; discriminate]. injection G as <-.
    repeat (destruct I as [<-|I]; [reflexivity|]). destruct I.
  - intros g [<-|[]]. cbn. lia.
  - intros s i x I. repeat (destruct I as [<-|I]; [cbn [x_bins w_row w_bins]; intros [<-|[]]; (exact (whole_number 0)) || (exact (whole_number 1))|]). destruct I.
Qed.
Lemma noisy_visits : visits noisy = 6.
Proof. cbn [noisy visits w_row x_y x_w]. repeat (match goal with |- context [Req_EM_T ?a 0] => destruct (Req_EM_T a 0); [lra|] end). lra. Qed.

Lemma noisy_rises gm bppf erfinv bad : exists t,
  whole_fit gm bppf erfinv bad (GBSRegressor 0) false [noisy_group] w_cfg ex_rate 1 noisy = Trained t /\
  mean_deviation (GBSRegressor 0) noisy (repeat (o_scale t) (length noisy)) <
  mean_deviation (GBSRegressor 0) noisy (whole_predict (GBSRegressor 0) false t noisy).
Proof.
  destruct noisy_smoothed as (r0 & r1 & Er & B0 & B1). destruct noisy_lex as [L F].
  assert (Loss : forall a b c d e g, kind_loss bad (GBSRegressor 0) (map x_y noisy) (map x_w noisy) [a; b; c; d; e; g] =
    ((a - 101) ^ 2 + (b + 99) ^ 2 + (c - 199/2) ^ 2 + (d + 201/2) ^ 2 + (e - 199/2) ^ 2 + (g + 201/2) ^ 2) / 6).
  { intros. unfold kind_loss. cbv zeta. unfold gbs_loss. cbv zeta. cbn [kind_link map unlink_func noisy w_row x_y x_w].
    repeat (match goal with |- context [Reqb ?x 0] => rewrite (proj2 (Reqb_false_iff x 0)) by lra end). cbn [map2 sumR].
    rewrite (proj2 (Reqb_false_iff _ 0)) by lra. field. }
  set (f0 := r0 + -2/45). set (f1 := r1 + -2/45).
  assert (E : whole_fit gm bppf erfinv bad (GBSRegressor 0) false [noisy_group] w_cfg ex_rate 1 noisy = Trained
    {| o_scale := 0; o_offset := 0;
       o_groups := [store (bind_group noisy 0 noisy_group) {| s_fitted := true; s_factors := [f0; f1; 0]; s_old := zeros 3; s_agg := Some [f0; f1; 0]; s_zero := false |}];
       o_iterations := 1; o_loss := kind_loss bad (GBSRegressor 0) (map x_y noisy) (map x_w noisy) [f0; f0; f1; f1; f1; f1] |}).
  { erewrite (one_pass gm bppf erfinv bad (GBSRegressor 0) false noisy_group ex_rate noisy 0 0 [f0; f1; 0]
      {| p_factors := [0; 0; 0; 0; 0; 0]; p_exponents := zeros 6 |} [f0; f0; f1; f1; f1; f1]).
    - rewrite F. reflexivity.
    - cbn [kind_scale]. unfold gbs_global_scale. cbn [noisy map w_row x_y x_w sumR map2].
      rewrite (proj2 (Reqb_false_iff _ _)) by lra. f_equal. field.
    - reflexivity.
    - reflexivity.
    - assert (Mn : f_mnl (bind_group noisy 0 noisy_group) = false) by reflexivity.
      set (f := bind_group noisy 0 noisy_group) in *. clearbody f.
      unfold new_factors. cbv zeta. cbn [snd]. unfold group_smoother, group_estimates. cbn [nth_error]. rewrite L, F.
      cbn [estimates p_factors]. rewrite noisy_estimates. rewrite Mn. cbn [map estimate_value estimate_uncertainty nth seq firstn s_zero init_fstate].
      cbn [noisy_group w_group g_smoother]. unfold default_unordered, cut_unseen, normalised, weighted_mean_bins.
      assert (Ew : bincounts [0; 0; 1; 1; 1; 1]%nat (map x_w noisy) 2 = [2; 4]).
      { unfold bincounts. cbn [noisy map w_row x_w seq bin_total Nat.eqb]. f_equal; [lra|f_equal; lra]. }
      rewrite Ew. assert (En : bins_norm [2; 4] [2/3; -2/5] = -2/45).
      { unfold bins_norm. cbn [sumR map2]. rewrite (proj2 (Rltb_iff _ _)) by lra. field. }
      rewrite En. cbn [map nth]. fold n_x0 n_x1. rewrite Er. cbn [nth option_map]. rewrite !(proj2 (Reqb_false_iff _ _)) by lra.
      unfold ex_rate, kind_calibration. cbn [app]. unfold f0, f1. f_equal; [lra|f_equal; [lra|f_equal; lra]].
    - cbn [p_factors]. rewrite L. cbn. repeat (f_equal; try lra).
    - cbn [p_factors]. rewrite !Loss. unfold f0, f1. nra. }
  eexists. split; [exact E|]. cbn [o_scale].
  destruct (whole_insample gm bppf erfinv bad (GBSRegressor 0) false [noisy_group] w_cfg ex_rate 1 noisy _ eq_refl noisy_binned E) as (_ & LO).
  specialize (LO ltac:(rewrite noisy_visits; lra)). cbn [o_loss] in LO. rewrite <- LO, Loss.
  unfold mean_deviation. rewrite noisy_visits. cbn [noisy length repeat squares w_row x_y x_w]. unfold f0, f1. nra.
Qed.

(** The same data without smoothing. *)
Definition plain_group : group := w_group bin_values.
Lemma plain_binned : binned_rows [plain_group] noisy.
Proof.
  destruct noisy_binned as (A & B & C). split; [|split; [|exact C]].
  - intros r [|i] g I G; cbn in G; [|destruct i; discriminate]. injection G as <-. exact (A r 0%nat noisy_group I eq_refl).
  - intros g [<-|[]]. cbn. lia.
Qed.
Lemma plain_falls gm bppf erfinv bad : exists t,
  whole_fit gm bppf erfinv bad (GBSRegressor 0) false [plain_group] w_cfg ex_rate 1 noisy = Trained t /\
  mean_deviation (GBSRegressor 0) noisy (whole_predict (GBSRegressor 0) false t noisy) <
  mean_deviation (GBSRegressor 0) noisy (repeat (o_scale t) (length noisy)).
Proof.
  assert (L : f_lex (bind_group noisy 0 plain_group) = [0; 0; 1; 1; 1; 1]%nat /\ f_finite (bind_group noisy 0 plain_group) = 2%nat) by (split; reflexivity).
  destruct L as [L F].
  assert (Loss : forall a b c d e g, kind_loss bad (GBSRegressor 0) (map x_y noisy) (map x_w noisy) [a; b; c; d; e; g] =
    ((a - 101) ^ 2 + (b + 99) ^ 2 + (c - 199/2) ^ 2 + (d + 201/2) ^ 2 + (e - 199/2) ^ 2 + (g + 201/2) ^ 2) / 6).
  { intros. unfold kind_loss. cbv zeta. unfold gbs_loss. cbv zeta. cbn [kind_link map unlink_func noisy w_row x_y x_w].
    repeat (match goal with |- context [Reqb ?x 0] => rewrite (proj2 (Reqb_false_iff x 0)) by lra end). cbn [map2 sumR].
    rewrite (proj2 (Reqb_false_iff _ 0)) by lra. field. }
  assert (E : whole_fit gm bppf erfinv bad (GBSRegressor 0) false [plain_group] w_cfg ex_rate 1 noisy = Trained
    {| o_scale := 0; o_offset := 0;
       o_groups := [store (bind_group noisy 0 plain_group) {| s_fitted := true; s_factors := [2/3; -2/5; 0]; s_old := zeros 3; s_agg := Some [2/3; -2/5; 0]; s_zero := false |}];
       o_iterations := 1; o_loss := kind_loss bad (GBSRegressor 0) (map x_y noisy) (map x_w noisy) [2/3; 2/3; -2/5; -2/5; -2/5; -2/5] |}).
  { erewrite (one_pass gm bppf erfinv bad (GBSRegressor 0) false plain_group ex_rate noisy 0 0 [2/3; -2/5; 0]
      {| p_factors := [0; 0; 0; 0; 0; 0]; p_exponents := zeros 6 |} [2/3; 2/3; -2/5; -2/5; -2/5; -2/5]).
    - rewrite F. reflexivity.
    - cbn [kind_scale]. unfold gbs_global_scale. cbn [noisy map w_row x_y x_w sumR map2].
      rewrite (proj2 (Reqb_false_iff _ _)) by lra. f_equal. field.
    - reflexivity.
    - reflexivity.
    - assert (Mn : f_mnl (bind_group noisy 0 plain_group) = false) by reflexivity.
      set (f := bind_group noisy 0 plain_group) in *. clearbody f.
      unfold new_factors. cbv zeta. cbn [snd]. unfold group_smoother, group_estimates. cbn [nth_error]. rewrite L, F.
      cbn [estimates p_factors]. rewrite noisy_estimates. rewrite Mn. cbn [map estimate_value estimate_uncertainty nth seq firstn s_zero init_fstate].
      cbn [plain_group w_group g_smoother]. unfold bin_values. cbn [nth_error].
      unfold ex_rate, kind_calibration. cbn [app]. f_equal; [lra|f_equal; [lra|f_equal; lra]].
    - cbn [p_factors]. rewrite L. cbn. repeat (f_equal; try lra).
    - cbn [p_factors]. rewrite !Loss. lra. }
  eexists. split; [exact E|]. cbn [o_scale].
  destruct (whole_insample gm bppf erfinv bad (GBSRegressor 0) false [plain_group] w_cfg ex_rate 1 noisy _ eq_refl plain_binned E) as (_ & LO).
  specialize (LO ltac:(rewrite noisy_visits; lra)). cbn [o_loss] in LO. rewrite <- LO, Loss.
  unfold mean_deviation. rewrite noisy_visits. cbn [noisy length repeat squares w_row x_y x_w]. lra.
Qed.

Theorem default_rises : forall gm bppf erfinv bad, exists g cfg rate D t,
  g_smoother g = default_unordered /\ binned_rows [g] D /\ Forall (fun s => x_w s = 1) D /\ visits D <> 0 /\
  (forall it i, rate it i = 1) /\ c_log cfg = false /\ c_aggregate cfg = true /\
  whole_fit gm bppf erfinv bad (GBSRegressor 0) false [g] cfg rate 1 D = Trained t /\
  mean_deviation (GBSRegressor 0) D (repeat (o_scale t) (length D)) <
  mean_deviation (GBSRegressor 0) D (whole_predict (GBSRegressor 0) false t D).
Proof.
  intros gm bppf erfinv bad. destruct (noisy_rises gm bppf erfinv bad) as (t & E & H).
  exists noisy_group, w_cfg, ex_rate, noisy, t. split; [reflexivity|]. split; [exact noisy_binned|].
  split; [repeat constructor|]. split; [rewrite noisy_visits; lra|]. split; [reflexivity|].
  split; [reflexivity|]. split; [reflexivity|]. exact (conj E H).
Qed.

Lemma plain_case : forall gm bppf erfinv bad,
  binned_rows [plain_group] noisy /\ Forall (fun s => 0 <= x_w s) noisy /\ visits noisy <> 0 /\
  (forall it i, 0 <= ex_rate it i <= 1) /\ Forall (fun g => shrinks (g_smoother g)) [plain_group] /\
  c_log w_cfg = false /\ c_aggregate w_cfg = true /\
  exists t, whole_fit gm bppf erfinv bad (GBSRegressor 0) false [plain_group] w_cfg ex_rate 1 noisy = Trained t /\
    mean_deviation (GBSRegressor 0) noisy (whole_predict (GBSRegressor 0) false t noisy) <
    mean_deviation (GBSRegressor 0) noisy (repeat (o_scale t) (length noisy)).
Proof.
  intros gm bppf erfinv bad. split; [exact plain_binned|]. split; [repeat constructor; cbn; lra|].
  split; [rewrite noisy_visits; lra|]. split; [intros it i; unfold ex_rate; lra|]. split; [constructor; [exact values_shrink|constructor]|].
  split; [reflexivity|]. split; [reflexivity|]. exact (plain_falls gm bppf erfinv bad).
Qed.
