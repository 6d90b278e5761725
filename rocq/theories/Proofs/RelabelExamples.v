(** A renumbering of categories that changes the training with an explicitly configured
    WeightedMeanSmoother, and a training with the default smoother:
    three rows, three categories, nearly the same targets. *)
From Coq Require Import ZArith QArith Qround List Bool Reals Lra Lia.
From Verif.Model Require Import Num LexBins Train Predict Link Estimators Gbs WholeFit Regularize BinSmoothers.
From Verif.Spec Require Import LexSpec DataSpec RelabelSpec.
From Verif.Proofs Require Import TrainFacts LinkFacts TrainExamples IsotonicRuns OrderFacts WholeExamples.
Import ListNotations.
Local Open Scope R_scope.

Definition dd : R := 15 / 1000000000.
Definition spread : list sample := [w_row 0 0 1; w_row 1 dd 1; w_row 2 (- dd) 1].
Definition swap (z : Z) : Z := if Z.eqb z 0 then 1%Z else if Z.eqb z 1 then 0%Z else z.
Definition swaps (i : nat) : list (Z -> Z) := [swap].
Definition swapped : list sample := [w_row 1 0 1; w_row 0 dd 1; w_row 2 (- dd) 1].
Lemma swapped_relabelled : map (relabel swaps) spread = swapped.
Proof. reflexivity. Qed.

Lemma swap_permutes : permutes 3 swap.
Proof.
  unfold swap. split; [|split].
  - intros z H. destruct (Z.eqb_spec z 0); [lia|]. destruct (Z.eqb_spec z 1); lia.
  - intros z H. destruct (Z.eqb_spec z 0); [lia|]. destruct (Z.eqb_spec z 1); lia.
  - exists swap. unfold swap. intros z H. destruct (Z.eqb_spec z 0) as [->|]; [cbn; lia|]. destruct (Z.eqb_spec z 1) as [->|]; [cbn; lia|].
    rewrite (proj2 (Z.eqb_neq z 0)), (proj2 (Z.eqb_neq z 1)) by auto. lia.
Qed.

Lemma spread_relabelling s : relabelling [w_group s] spread swaps.
Proof.
  intros [|i] g G; cbn in G; [|destruct i; discriminate]. injection G as <-. split; [cbn; lia|].
  exists [3%Z]. split; [reflexivity|]. split; [|constructor; [apply swap_permutes|constructor]].
  assert (H : forall z, (0 <= z < 3)%Z -> holds_tuple [Fin (inject_Z z)] [z] /\ valid_tuple [3%Z] [z]).
  { intros z Hz. split; constructor; try constructor; try lia. eexists; split; reflexivity. }
  assert (I : forall z, (0 <= z < 3)%Z -> In [Fin (inject_Z z)] (map (fun s => x_bins s 0%nat) spread)).
  { intros z Hz. assert (z = 0 \/ z = 1 \/ z = 2)%Z as [->|[->| ->]] by lia; cbn; auto. }
  split; [|split].
  - constructor; [lia|constructor].
  - intros row J. cbn in J. destruct J as [<-|[<-|[<-|[]]]]; (split; [reflexivity|]; right);
      [exists [0%Z]; apply (H 0%Z)|exists [1%Z]; apply (H 1%Z)|exists [2%Z]; apply (H 2%Z)]; lia.
  - intros [|c] k z Hc Hz; cbn in Hc; [|destruct c; discriminate]. injection Hc as <-.
    exists [Fin (inject_Z z)], [z]. split; [apply I; auto|]. destruct (H z Hz). auto.
Qed.

Lemma spread_lex s : f_lex (bind_group spread 0 (w_group s)) = [0; 1; 2]%nat /\ f_finite (bind_group spread 0 (w_group s)) = 3%nat.
Proof. split; reflexivity. Qed.
Lemma swapped_lex s : f_lex (bind_group swapped 0 (w_group s)) = [1; 0; 2]%nat /\ f_finite (bind_group swapped 0 (w_group s)) = 3%nat.
Proof. split; reflexivity. Qed.

Lemma spread_prior : variance_prior [0; dd; - dd] [1; 1; 1] = Some 1.
Proof. unfold dd. lcomp. repeat (real_step; lcomp). f_equal. Qed.
Lemma spread_variances : precalc_variance_y [0; 1; 2]%nat 4 [0; dd; - dd] [1; 1; 1] = [Some (1/2); Some (1/2); Some (1/2); Some 1].
Proof. unfold precalc_variance_y. rewrite spread_prior. unfold dd. lcomp. repeat (real_step; lcomp). repeat (f_equal; try field). Qed.
Lemma swapped_variances : precalc_variance_y [1; 0; 2]%nat 4 [0; dd; - dd] [1; 1; 1] = [Some (1/2); Some (1/2); Some (1/2); Some 1].
Proof. unfold precalc_variance_y. rewrite spread_prior. unfold dd. lcomp. repeat (real_step; lcomp). repeat (f_equal; try field). Qed.

Definition cc : R := dd * (200/201).
Definition mu : R := - (1/1000) * (200/201).
Definition u0 : R := sqrt (201/100 / (201/100) ^ 2).
Definition um : R := sqrt (1/100 / (1/100) ^ 2).
Lemma spread_estimates : location_parameters [0; 1; 2]%nat 4 [0; dd; - dd] [1; 1; 1] [1/1000; 1/1000; 1/1000] =
  [Some (mu, u0); Some (mu + cc, u0); Some (mu - cc, u0); Some (0, um)].
Proof.
  unfold location_parameters. rewrite spread_variances. unfold mu, cc, u0, um, dd. lcomp. repeat (real_step; lcomp).
  repeat (apply f_equal2; [apply some_pair; [field|apply sqrt_same; field]|]). reflexivity.
Qed.
Lemma swapped_estimates : location_parameters [1; 0; 2]%nat 4 [0; dd; - dd] [1; 1; 1] [1/1000; 1/1000; 1/1000] =
  [Some (mu + cc, u0); Some (mu, u0); Some (mu - cc, u0); Some (0, um)].
Proof.
  unfold location_parameters. rewrite swapped_variances. unfold mu, cc, u0, um, dd. lcomp. repeat (real_step; lcomp).
  repeat (apply f_equal2; [apply some_pair; [field|apply sqrt_same; field]|]). reflexivity.
Qed.

Lemma u0_square : u0 * u0 = 100/201 /\ 0 < u0.
Proof. unfold u0. split; [rewrite sqrt_sqrt by lra; field|apply sqrt_lt_R0; lra]. Qed.

Definition shrink : R := 201/100 / (201/100 + 3 / (2 * (cc * cc))).
Lemma spread_smoothed : regularize_to_error_weighted_mean [mu; mu + cc; mu - cc] [u0; u0; u0] None =
  Some [Some mu; Some (mu + cc); Some (mu - cc)].
Proof.
  unfold regularize_to_error_weighted_mean. cbn [length Nat.eqb negb].
  assert (C : allclose [mu; mu + cc; mu - cc] mu = true).
  { unfold allclose, isclose. cbn [forallb]. unfold mu, cc, dd. rewrite (Rabs_left (-(1/1000) * (200/201))) by lra.
    repeat (apply andb_true_intro; split; [apply Rleb_iff; unfold Rabs; destruct (Rcase_abs _); lra|]). reflexivity. }
  rewrite C. reflexivity.
Qed.
Lemma swapped_smoothed : regularize_to_error_weighted_mean [mu + cc; mu; mu - cc] [u0; u0; u0] None =
  Some [Some (mu + shrink * cc); Some mu; Some (mu - shrink * cc)].
Proof.
  destruct u0_square as [Q P]. unfold regularize_to_error_weighted_mean. cbn [length Nat.eqb negb].
  assert (C : allclose [mu + cc; mu; mu - cc] (mu + cc) = false).
  { unfold allclose, isclose. cbn [forallb]. apply andb_false_intro2. apply andb_false_intro2. apply andb_false_intro1. apply Rleb_false.
    unfold mu, cc, dd. unfold Rabs. repeat destruct (Rcase_abs _); lra. }
  rewrite C. cbn [existsb map]. rewrite (proj2 (Reqb_false_iff u0 0)) by lra. cbn [orb]. rewrite Q.
  cbv zeta. cbn [map2 sumR]. assert (Cp : 0 < cc) by (unfold cc, dd; lra).
  set (W := 1 / (100/201)). assert (EW : W = 201/100) by (unfold W; field). rewrite EW. clearbody W.
  assert (Em : (201/100 * (mu + cc) + (201/100 * mu + (201/100 * (mu - cc) + 0))) / (201/100 + (201/100 + (201/100 + 0))) = mu) by field.
  rewrite Em.
  assert (Ei : 1 / ((201/100 * (mu + cc - mu) ^ 2 + (201/100 * (mu - mu) ^ 2 + (201/100 * (mu - cc - mu) ^ 2 + 0))) / (201/100 + (201/100 + (201/100 + 0)))) = 3 / (2 * (cc * cc))).
  { field. split; lra || nra. }
  rewrite Ei. unfold shrink. assert (Ip : 0 < 3 / (2 * (cc * cc))) by (apply Rdiv_lt_0_compat; [lra|nra]).
  set (I := 3 / (2 * (cc * cc))) in *. clearbody I.
  apply f_equal. repeat (apply f_equal2; [apply f_equal; field; lra|]). reflexivity.
Qed.
(** The default smoother. *)
Lemma spread_norm : bins_norm [1; 1; 1] [mu; mu + cc; mu - cc] = mu.
Proof. unfold bins_norm. cbn [sumR map2]. cbv zeta. rewrite (proj2 (Rltb_iff _ _)) by lra. field. Qed.
Lemma spread_default b : (b < 3)%nat -> default_unordered [[0%Z]; [1%Z]; [2%Z]] [1; 1; 1] [u0; u0; u0] [mu; mu + cc; mu - cc] b =
  nth b [Some mu; Some (mu + shrink * cc); Some (mu - shrink * cc)] None.
Proof.
  intro Hb. unfold default_unordered, cut_unseen, normalised. cbv zeta. rewrite spread_norm.
  rewrite (proj2 (Reqb_false_iff _ _)) by (destruct b as [|[|[|b]]]; cbn [nth]; lra || lia).
  unfold weighted_mean_bins. destruct u0_square as [Q P]. unfold regularize_to_error_weighted_mean. cbn [length Nat.eqb negb map].
  assert (Cp : 0 < cc) by (unfold cc, dd; lra).
  assert (C : allclose [mu - mu; mu + cc - mu; mu - cc - mu] 0 = false).
  { unfold allclose, isclose. cbn [forallb]. apply andb_false_intro2. apply andb_false_intro1. apply Rleb_false.
    rewrite Rabs_R0. replace (mu + cc - mu - 0) with cc by ring. rewrite (Rabs_right cc) by lra. unfold cc, dd. lra. }
  rewrite C. cbn [existsb]. rewrite (proj2 (Reqb_false_iff u0 0)) by lra. cbn [orb]. rewrite Q.
  cbv zeta. cbn [map2 sumR].
  set (W := 1 / (100/201)). assert (EW : W = 201/100) by (unfold W; field). rewrite EW. clearbody W.
  assert (Ei : 1 / ((201/100 * (mu - mu - 0) ^ 2 + (201/100 * (mu + cc - mu - 0) ^ 2 + (201/100 * (mu - cc - mu - 0) ^ 2 + 0))) / (201/100 + (201/100 + (201/100 + 0)))) = 3 / (2 * (cc * cc))).
  { field. split; lra || nra. }
  rewrite Ei. unfold shrink. assert (Ip : 0 < 3 / (2 * (cc * cc))) by (apply Rdiv_lt_0_compat; [lra|nra]).
  set (I := 3 / (2 * (cc * cc))) in *. clearbody I.
  destruct b as [|[|[|b]]]; cbn [nth option_map]; [| | |lia]; f_equal; field; lra.
Qed.
Lemma shrink_bounds : 0 < shrink < 1/2.
Proof.
  unfold shrink. assert (Cp : 0 < cc) by (unfold cc, dd; lra). assert (Ip : 201/100 < 3 / (2 * (cc * cc))).
  { apply (Rmult_lt_reg_r (2 * (cc * cc))); [nra|]. unfold Rdiv at 2. rewrite Rmult_assoc, Rinv_l by nra. unfold cc, dd. lra. }
  set (I := 3 / (2 * (cc * cc))) in *. clearbody I. split; [apply Rdiv_lt_0_compat; lra|].
  apply (Rmult_lt_reg_r (201/100 + I)); [lra|]. unfold Rdiv at 1. rewrite Rmult_assoc, Rinv_l by lra. lra.
Qed.

Section Runs.
Variables (gm : R -> R) (bppf : R -> R -> R -> R) (erfinv : R -> R) (bad : R).
Definition r_model (values : list R) (loss : R) : model :=
  {| o_scale := 1/1000; o_offset := 1/1000;
     o_groups := [{| m_dim := 1; m_nbins := [3%Z]; m_ext := false; m_values := values; m_missing := - mu; m_smoother := true |}];
     o_iterations := 1; o_loss := loss |}.

Lemma spread_fit : exists l, whole_fit gm bppf erfinv bad LocationRegressor false [w_group explicit_mean] w_cfg ex_rate 1 spread =
  Trained (r_model [0; cc; - cc] l).
Proof.
  destruct (spread_lex explicit_mean) as [L F]. eexists.
  erewrite (one_pass gm bppf erfinv bad LocationRegressor false _ ex_rate spread (1/1000) (1/1000) [0; cc; - cc; - mu]
    {| p_factors := [1/1000; 1/1000; 1/1000]; p_exponents := zeros 3 |} [1/1000; 1/1000 + cc; 1/1000 - cc]).
  - unfold r_model. f_equal.
  - cbn [kind_scale kind_link]. unfold global_scale, weighted_mean. cbn [spread map w_row x_y x_w sumR map2].
    rewrite (proj2 (Reqb_false_iff _ _)) by lra. cbn [link_func]. f_equal. field.
  - unfold kind_offset, prior_offset, link_option, weighted_mean. cbn [spread map w_row x_prior x_w finite_values finite_weights sumR map2].
    rewrite (proj2 (Reqb_iff _ _)) by lra. reflexivity.
  - reflexivity.
  - assert (Mn : f_mnl (bind_group spread 0 (w_group explicit_mean)) = false) by reflexivity.
    set (f := bind_group spread 0 (w_group explicit_mean)) in *. clearbody f.
    unfold new_factors. cbv zeta. cbn [snd]. unfold group_smoother, group_estimates. cbn [nth_error]. rewrite L, F.
    cbn [estimates]. change (map x_y spread) with [0; dd; - dd]. change (map x_w spread) with [1; 1; 1]. cbn [p_factors].
    rewrite spread_estimates. rewrite Mn. cbn [map estimate_value estimate_uncertainty nth seq firstn s_zero init_fstate].
    cbn [w_group g_smoother]. unfold explicit_mean, cut_unseen, weighted_mean_bins.
    rewrite spread_smoothed. unfold bincounts. cbn [map seq nth bin_total Nat.eqb].
    rewrite !(proj2 (Reqb_false_iff _ _)) by lra. cbn [app]. unfold ex_rate. unfold kind_calibration, location_calibration. cbn [nth_error].
    rewrite L, F, Mn. unfold bincounts. cbn [map seq bin_total Nat.eqb]. unfold calibrate, centred. cbn [map map2 sumR].
    repeat (apply f_equal2; [field|]). reflexivity.
  - cbn [p_factors]. rewrite L. cbn. repeat (apply f_equal2; [lra|]). reflexivity.
  - cbn [kind_loss kind_link p_factors spread w_row map x_y x_w]. unfold squared_loss. cbn. unfold cc, dd. lra.
Qed.
Lemma swapped_fit : exists l, whole_fit gm bppf erfinv bad LocationRegressor false [w_group explicit_mean] w_cfg ex_rate 1 swapped =
  Trained (r_model [shrink * cc; 0; - (shrink * cc)] l).
Proof.
  destruct (swapped_lex explicit_mean) as [L F]. eexists.
  erewrite (one_pass gm bppf erfinv bad LocationRegressor false _ ex_rate swapped (1/1000) (1/1000) [shrink * cc; 0; - (shrink * cc); - mu]
    {| p_factors := [1/1000; 1/1000; 1/1000]; p_exponents := zeros 3 |} [1/1000; 1/1000 + shrink * cc; 1/1000 - shrink * cc]).
  - unfold r_model. f_equal.
  - cbn [kind_scale kind_link]. unfold global_scale, weighted_mean. cbn [swapped map w_row x_y x_w sumR map2].
    rewrite (proj2 (Reqb_false_iff _ _)) by lra. cbn [link_func]. f_equal. field.
  - unfold kind_offset, prior_offset, link_option, weighted_mean. cbn [swapped map w_row x_prior x_w finite_values finite_weights sumR map2].
    rewrite (proj2 (Reqb_iff _ _)) by lra. reflexivity.
  - reflexivity.
  - assert (Mn : f_mnl (bind_group swapped 0 (w_group explicit_mean)) = false) by reflexivity.
    set (f := bind_group swapped 0 (w_group explicit_mean)) in *. clearbody f.
    unfold new_factors. cbv zeta. cbn [snd]. unfold group_smoother, group_estimates. cbn [nth_error]. rewrite L, F.
    cbn [estimates]. change (map x_y swapped) with [0; dd; - dd]. change (map x_w swapped) with [1; 1; 1]. cbn [p_factors].
    rewrite swapped_estimates. rewrite Mn. cbn [map estimate_value estimate_uncertainty nth seq firstn s_zero init_fstate].
    cbn [w_group g_smoother]. unfold explicit_mean, cut_unseen, weighted_mean_bins.
    rewrite swapped_smoothed. unfold bincounts. cbn [map seq nth bin_total Nat.eqb].
    rewrite !(proj2 (Reqb_false_iff _ _)) by lra. cbn [app]. unfold ex_rate. unfold kind_calibration, location_calibration. cbn [nth_error].
    rewrite L, F, Mn. unfold bincounts. cbn [map seq bin_total Nat.eqb]. unfold calibrate, centred. cbn [map map2 sumR].
    generalize shrink. intro. repeat (apply f_equal2; [field|]). reflexivity.
  - cbn [p_factors]. rewrite L. cbn. repeat (apply f_equal2; [lra|]). reflexivity.
  - pose proof shrink_bounds. cbn [kind_loss kind_link p_factors swapped w_row map x_y x_w]. unfold squared_loss. cbn. unfold cc, dd.
    set (s := shrink) in *. clearbody s. nra.
Qed.
Lemma spread_default_fit : exists l, whole_fit gm bppf erfinv bad LocationRegressor false [w_group default_unordered] w_cfg ex_rate 1 spread =
  Trained (r_model [0; shrink * cc; - (shrink * cc)] l).
Proof.
  destruct (spread_lex default_unordered) as [L F]. eexists.
  erewrite (one_pass gm bppf erfinv bad LocationRegressor false _ ex_rate spread (1/1000) (1/1000) [0; shrink * cc; - (shrink * cc); - mu]
    {| p_factors := [1/1000; 1/1000; 1/1000]; p_exponents := zeros 3 |} [1/1000; 1/1000 + shrink * cc; 1/1000 - shrink * cc]).
  - unfold r_model. f_equal.
  - cbn [kind_scale kind_link]. unfold global_scale, weighted_mean. cbn [spread map w_row x_y x_w sumR map2].
    rewrite (proj2 (Reqb_false_iff _ _)) by lra. cbn [link_func]. f_equal. field.
  - unfold kind_offset, prior_offset, link_option, weighted_mean. cbn [spread map w_row x_prior x_w finite_values finite_weights sumR map2].
    rewrite (proj2 (Reqb_iff _ _)) by lra. reflexivity.
  - reflexivity.
  - assert (Mn : f_mnl (bind_group spread 0 (w_group default_unordered)) = false) by reflexivity.
    assert (Nb : arange_multi (f_nbins (bind_group spread 0 (w_group default_unordered))) = [[0%Z]; [1%Z]; [2%Z]]) by reflexivity.
    set (f := bind_group spread 0 (w_group default_unordered)) in *. clearbody f.
    unfold new_factors. cbv zeta. cbn [snd]. unfold group_smoother, group_estimates. cbn [nth_error]. rewrite L, F, Nb.
    cbn [estimates]. change (map x_y spread) with [0; dd; - dd]. change (map x_w spread) with [1; 1; 1]. cbn [p_factors].
    rewrite spread_estimates. rewrite Mn. cbn [map estimate_value estimate_uncertainty nth seq firstn s_zero init_fstate].
    cbn [w_group g_smoother].
    assert (Bc : bincounts [0; 1; 2]%nat [1; 1; 1] 3 = [1; 1; 1]).
    { unfold bincounts. cbn [map seq bin_total Nat.eqb]. repeat (apply f_equal2; [lra|]). reflexivity. }
    rewrite Bc, !spread_default by lia. cbn [nth]. cbn [app]. unfold ex_rate. unfold kind_calibration, location_calibration. cbn [nth_error].
    rewrite L, F, Mn. unfold bincounts. cbn [map seq bin_total Nat.eqb]. unfold calibrate, centred. cbn [map map2 sumR].
    generalize shrink. intro. repeat (apply f_equal2; [field|]). reflexivity.
  - cbn [p_factors]. rewrite L. cbn. repeat (apply f_equal2; [lra|]). reflexivity.
  - pose proof shrink_bounds. cbn [kind_loss kind_link p_factors spread w_row map x_y x_w]. unfold squared_loss. cbn. unfold cc, dd.
    set (s := shrink) in *. clearbody s. nra.
Qed.
End Runs.

Theorem explicit_depends_on_labels gm bppf erfinv bad : exists gs cfg rate fuel D T,
  relabelling gs D T /\ (forall g, In g gs -> g_smoother g = explicit_mean) /\
  ~ same_up_to_labels LocationRegressor false gs T
      (whole_fit gm bppf erfinv bad LocationRegressor false gs cfg rate fuel D)
      (whole_fit gm bppf erfinv bad LocationRegressor false gs cfg rate fuel (map (relabel T) D)).
Proof.
  exists [w_group explicit_mean], w_cfg, ex_rate, 1%nat, spread, swaps. split; [apply spread_relabelling|].
  split; [intros g [<-|[]]; reflexivity|]. rewrite swapped_relabelled.
  destruct (spread_fit gm bppf erfinv bad) as [l ->]. destruct (swapped_fit gm bppf erfinv bad) as [l' ->].
  intros (_ & _ & _ & _ & H).
  assert (W : integer_rows [w_group explicit_mean] spread).
  { intros s [|i] g I G; cbn in G; [|destruct i; discriminate]. injection G as <-. destruct I as [<-|[<-|[<-|[]]]];
      (split; [reflexivity|]; intros x [<-|[]] _; eexists; eexists; split; [reflexivity|]); [apply (Qeq_refl (inject_Z 0))|apply (Qeq_refl (inject_Z 1))|apply (Qeq_refl (inject_Z 2))]. }
  specialize (H spread W). rewrite swapped_relabelled in H. apply (f_equal (fun l => nth 1 l 0)) in H.
  pose proof shrink_bounds. unfold whole_predict, cb_predict in H. cbn in H. assert (0 < cc) by (unfold cc, dd; lra). change (Pos.to_nat 1) with 1%nat in H. cbn in H. nra.
Qed.
