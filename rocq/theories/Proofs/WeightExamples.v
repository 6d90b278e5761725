(** Rows with weight two and the same rows twice: the LocPoisson and the GBS
    regressor learn different contributions. *)
From Coq Require Import ZArith QArith Qround List Bool Reals Lra Lia.
From Verif.Model Require Import Num LexBins Train Predict Link Estimators Gbs WholeFit Regularize BinSmoothers.
From Verif.Spec Require Import DataSpec.
From Verif.Proofs Require Import TrainFacts LinkFacts TrainExamples IsotonicRuns OrderFacts WholeExamples.
Import ListNotations.
Local Open Scope R_scope.

Definition p_heavy : list sample := [w_row 0 (2999/1000) 2; w_row 1 (999/1000) 2].
Definition p_twice : list sample := [w_row 0 (2999/1000) 1; w_row 0 (2999/1000) 1; w_row 1 (999/1000) 1; w_row 1 (999/1000) 1].

Lemma p_heavy_lex s : f_lex (bind_group p_heavy 0 (w_group s)) = [0; 1]%nat /\ f_finite (bind_group p_heavy 0 (w_group s)) = 2%nat.
Proof. split; reflexivity. Qed.
Lemma p_twice_lex s : f_lex (bind_group p_twice 0 (w_group s)) = [0; 0; 1; 1]%nat /\ f_finite (bind_group p_twice 0 (w_group s)) = 2%nat.
Proof. split; reflexivity. Qed.

Lemma p_heavy_twice : same_content p_heavy p_twice.
Proof.
  unfold p_heavy, p_twice. eapply sc_trans; [apply (sc_split _ 1 1); cbn; lra|].
  apply (content_app [w_row 0 (2999/1000) 1; w_row 0 (2999/1000) 1] [w_row 1 (999/1000) 2]).
  apply (sc_split (w_row 1 (999/1000) 2) 1 1 []). cbn. lra.
Qed.
Lemma p_well_formed s : well_formed [w_group s] p_heavy.
Proof.
  intros r [|i] g I G; cbn in G; [|destruct i; discriminate]. injection G as <-. destruct I as [<-|[<-|[]]]; reflexivity.
Qed.

(** ** LocPoisson *)
Lemma std_one y w : (exists m, weighted_mean y w = Some m /\ sumR (map2 (fun wi yi => wi * (yi - m) ^ 2) w y) / sumR w = 1) ->
  weighted_stddev y w = Some 1.
Proof. intros (m & E & V). unfold weighted_stddev. rewrite E, V, sqrt_1. auto. Qed.
Lemma p_heavy_std : weighted_stddev [2999/1000; 999/1000] [2; 2] = Some 1.
Proof.
  apply std_one. exists (1999/1000). split.
  - unfold weighted_mean. cbn [map2 sumR]. rewrite (proj2 (Reqb_false_iff _ _)) by lra. f_equal. field.
  - cbn [map2 sumR]. field.
Qed.
Lemma p_twice_std : weighted_stddev [2999/1000; 2999/1000; 999/1000; 999/1000] [1; 1; 1; 1] = Some 1.
Proof.
  apply std_one. exists (1999/1000). split.
  - unfold weighted_mean. cbn [map2 sumR]. rewrite (proj2 (Reqb_false_iff _ _)) by lra. f_equal. field.
  - cbn [map2 sumR]. field.
Qed.

Lemma p_heavy_estimates : locpoisson_parameters [0; 1]%nat 3 [2999/1000; 999/1000] [2; 2] [2; 2] =
  [Some (333/1000, 2); Some (-1001/3000, 2); Some (0, 1)].
Proof.
  unfold locpoisson_parameters. rewrite p_heavy_std. lcomp. repeat (real_step; lcomp).
  repeat (apply f_equal2; [apply some_pair; field|]). reflexivity.
Qed.
Lemma p_twice_estimates : locpoisson_parameters [0; 0; 1; 1]%nat 3 [2999/1000; 2999/1000; 999/1000; 999/1000] [1; 1; 1; 1] [2; 2; 2; 2] =
  [Some (666/1000, 1); Some (-2002/3000, 1); Some (0, 1)].
Proof.
  unfold locpoisson_parameters. rewrite p_twice_std. lcomp. repeat (real_step; lcomp).
  repeat (apply f_equal2; [apply some_pair; field|]). reflexivity.
Qed.

Definition p_model (a b l : R) : model :=
  {| o_scale := 2; o_offset := 2;
     o_groups := [{| m_dim := 1; m_nbins := [2%Z]; m_ext := false; m_values := [a; b]; m_missing := 0; m_smoother := true |}];
     o_iterations := 1; o_loss := l |}.

Section Runs.
Variables (gm : R -> R) (bppf : R -> R -> R -> R) (erfinv : R -> R) (bad : R).

Lemma p_heavy_fit : exists l, whole_fit gm bppf erfinv bad LocPoissonRegressor false [w_group bin_values] w_cfg ex_rate 1 p_heavy =
  Trained (p_model (333/1000) (-1001/3000) l).
Proof.
  destruct (p_heavy_lex bin_values) as [L F]. eexists.
  erewrite (one_pass gm bppf erfinv bad LocPoissonRegressor false _ ex_rate p_heavy 2 2 [333/1000; -1001/3000; 0]
    {| p_factors := [2; 2]; p_exponents := zeros 2 |} [2333/1000; 4999/3000]).
  - unfold p_model. f_equal.
  - cbn [kind_scale kind_link]. unfold global_scale, weighted_mean. cbn [p_heavy map w_row x_y x_w sumR map2].
    rewrite (proj2 (Reqb_false_iff _ _)) by lra. cbn [link_func]. f_equal. field.
  - unfold kind_offset, prior_offset, link_option, weighted_mean. cbn [p_heavy map w_row x_prior x_w finite_values finite_weights sumR map2].
    rewrite (proj2 (Reqb_iff _ _)) by lra. reflexivity.
  - reflexivity.
  - assert (Mn : f_mnl (bind_group p_heavy 0 (w_group bin_values)) = false) by reflexivity.
    set (f := bind_group p_heavy 0 (w_group bin_values)) in *. clearbody f.
    unfold new_factors. cbv zeta. cbn [snd]. unfold group_smoother, group_estimates. cbn [nth_error]. rewrite L, F.
    cbn [estimates]. change (map x_y p_heavy) with [2999/1000; 999/1000]. change (map x_w p_heavy) with [2; 2]. cbn [p_factors].
    rewrite p_heavy_estimates. rewrite Mn. cbn [map estimate_value estimate_uncertainty nth seq firstn s_zero init_fstate].
    cbn [w_group g_smoother]. unfold bin_values. cbn [nth_error app]. unfold ex_rate, kind_calibration. cbn [map]. repeat (f_equal; try lra).
  - cbn [p_factors]. rewrite L. cbn. repeat (f_equal; try lra).
  - cbn [kind_loss kind_link p_factors p_heavy w_row map x_y x_w]. unfold squared_loss. cbn. lra.
Qed.
Lemma p_twice_fit : exists l, whole_fit gm bppf erfinv bad LocPoissonRegressor false [w_group bin_values] w_cfg ex_rate 1 p_twice =
  Trained (p_model (666/1000) (-2002/3000) l).
Proof.
  destruct (p_twice_lex bin_values) as [L F]. eexists.
  erewrite (one_pass gm bppf erfinv bad LocPoissonRegressor false _ ex_rate p_twice 2 2 [666/1000; -2002/3000; 0]
    {| p_factors := [2; 2; 2; 2]; p_exponents := zeros 4 |} [2666/1000; 2666/1000; 3998/3000; 3998/3000]).
  - unfold p_model. f_equal.
  - cbn [kind_scale kind_link]. unfold global_scale, weighted_mean. cbn [p_twice map w_row x_y x_w sumR map2].
    rewrite (proj2 (Reqb_false_iff _ _)) by lra. cbn [link_func]. f_equal. field.
  - unfold kind_offset, prior_offset, link_option, weighted_mean. cbn [p_twice map w_row x_prior x_w finite_values finite_weights sumR map2].
    rewrite (proj2 (Reqb_iff _ _)) by lra. reflexivity.
  - reflexivity.
  - assert (Mn : f_mnl (bind_group p_twice 0 (w_group bin_values)) = false) by reflexivity.
    set (f := bind_group p_twice 0 (w_group bin_values)) in *. clearbody f.
    unfold new_factors. cbv zeta. cbn [snd]. unfold group_smoother, group_estimates. cbn [nth_error]. rewrite L, F.
    cbn [estimates]. change (map x_y p_twice) with [2999/1000; 2999/1000; 999/1000; 999/1000]. change (map x_w p_twice) with [1; 1; 1; 1]. cbn [p_factors].
    rewrite p_twice_estimates. rewrite Mn. cbn [map estimate_value estimate_uncertainty nth seq firstn s_zero init_fstate].
    cbn [w_group g_smoother]. unfold bin_values. cbn [nth_error app]. unfold ex_rate, kind_calibration. cbn [map]. repeat (f_equal; try lra).
  - cbn [p_factors]. rewrite L. cbn. repeat (f_equal; try lra).
  - cbn [kind_loss kind_link p_factors p_twice w_row map x_y x_w]. unfold squared_loss. cbn. lra.
Qed.
End Runs.

Theorem weights_locpoisson gm bppf erfinv bad : exists gs cfg rate fuel D D' m m',
  well_formed gs D /\ same_content D D' /\ (forall g, In g gs -> g_smoother g = bin_values) /\
  whole_fit gm bppf erfinv bad LocPoissonRegressor false gs cfg rate fuel D = Trained m /\
  whole_fit gm bppf erfinv bad LocPoissonRegressor false gs cfg rate fuel D' = Trained m' /\
  o_groups m <> o_groups m'.
Proof.
  destruct (p_heavy_fit gm bppf erfinv bad) as (l & H). destruct (p_twice_fit gm bppf erfinv bad) as (l' & T).
  exists [w_group bin_values], w_cfg, ex_rate, 1%nat, p_heavy, p_twice, (p_model (333/1000) (-1001/3000) l), (p_model (666/1000) (-2002/3000) l').
  split; [apply p_well_formed|]. split; [exact p_heavy_twice|]. split; [intros g [<-|[]]; reflexivity|]. split; [exact H|]. split; [exact T|].
  intro E. apply (f_equal (fun m => match m with g :: _ => hd 0 (m_values g) | [] => 0 end)) in E. cbn in E. lra.
Qed.

(** ** GBS *)
Definition g_u (a : R) : R := sqrt (a / 81).
Lemma g_heavy_estimates : gbs_parameters 0 [0; 1]%nat 3 [2999/1000; 999/1000] [2; 2] [1999/1000; 1999/1000] =
  [Some (2/3, g_u 8); Some (-2/3, g_u 8); Some (0, 0)].
Proof.
  unfold gbs_parameters, g_u. lcomp. repeat (real_step; lcomp).
  repeat (apply f_equal2; [apply some_pair; [field|first [solve [apply sqrt_same; field] | transitivity (sqrt 0); [apply sqrt_same; field|apply sqrt_0]]]|]). reflexivity.
Qed.
Lemma g_twice_estimates : gbs_parameters 0 [0; 0; 1; 1]%nat 3 [2999/1000; 2999/1000; 999/1000; 999/1000] [1; 1; 1; 1] [1999/1000; 1999/1000; 1999/1000; 1999/1000] =
  [Some (2/3, g_u 6); Some (-2/3, g_u 6); Some (0, 0)].
Proof.
  unfold gbs_parameters, g_u. lcomp. repeat (real_step; lcomp).
  repeat (apply f_equal2; [apply some_pair; [field|first [solve [apply sqrt_same; field] | transitivity (sqrt 0); [apply sqrt_same; field|apply sqrt_0]]]|]). reflexivity.
Qed.
Lemma g_u_square a : 0 < a -> g_u a * g_u a = a / 81 /\ 0 < g_u a.
Proof.
  intro H. assert (P : 0 < a / 81) by lra. unfold g_u. split; [apply sqrt_sqrt; lra|apply sqrt_lt_R0; auto].
Qed.
Definition g_value (a : R) : R := (81 / a * (2/3)) / (81 / a + 9/4).
Lemma g_smoothed a : 0 < a ->
  regularize_to_error_weighted_mean [2/3; -2/3] [g_u a; g_u a] None = Some [Some (g_value a); Some (- g_value a)].
Proof.
  intro H. destruct (g_u_square a H) as [Q P]. unfold regularize_to_error_weighted_mean. cbn [length Nat.eqb negb].
  assert (C : allclose [2/3; -2/3] (2/3) = false).
  { unfold allclose, isclose. cbn [forallb]. apply andb_false_intro2. apply andb_false_intro1. apply Rleb_false.
    rewrite (Rabs_left (-2/3 - 2/3)) by lra. rewrite (Rabs_pos_eq (2/3)) by lra. lra. }
  rewrite C. cbn [existsb map]. rewrite (proj2 (Reqb_false_iff _ _)) by lra. cbn [orb]. rewrite Q.
  cbv zeta. cbn [map2 sumR]. assert (N : a <> 0) by lra.
  set (W := 1 / (a / 81)). assert (EW : W = 81 / a) by (unfold W; field; auto).
  assert (PW : 0 < W) by (rewrite EW; apply Rdiv_lt_0_compat; lra).
  assert (M : (W * (2/3) + (W * (-2/3) + 0)) / (W + (W + 0)) = 0) by (field; lra).
  rewrite M.
  assert (I : 1 / ((W * (2/3 - 0) ^ 2 + (W * (-2/3 - 0) ^ 2 + 0)) / (W + (W + 0))) = 9/4) by (field; lra).
  rewrite I. unfold g_value. rewrite <- EW. clearbody W. f_equal. f_equal; [f_equal; field; lra|]. f_equal. f_equal. field. lra.
Qed.
Lemma g_bounds a : 0 < a -> 0 < g_value a < 1.
Proof.
  intro H. assert (P : 0 < 81 / a) by (apply Rdiv_lt_0_compat; lra). unfold g_value.
  set (W := 81 / a) in *. clearbody W. split; [apply Rdiv_lt_0_compat; lra|].
  apply (Rmult_lt_reg_r (W + 9/4)); [lra|]. unfold Rdiv at 1. rewrite Rmult_assoc, Rinv_l by lra. lra.
Qed.

Definition g_model (a l : R) : model :=
  {| o_scale := 1999/1000; o_offset := 0;
     o_groups := [{| m_dim := 1; m_nbins := [2%Z]; m_ext := false; m_values := [g_value a; - g_value a]; m_missing := 0; m_smoother := true |}];
     o_iterations := 1; o_loss := l |}.

Section GRuns.
Variables (gm : R -> R) (bppf : R -> R -> R -> R) (erfinv : R -> R) (bad : R).
Lemma g_heavy_fit : exists l, whole_fit gm bppf erfinv bad (GBSRegressor 0) false [w_group explicit_mean] w_cfg ex_rate 1 p_heavy =
  Trained (g_model 8 l).
Proof.
  set (a := 8). assert (Ha : 0 < a) by (unfold a; lra).
  destruct (p_heavy_lex explicit_mean) as [L F]. eexists.
  erewrite (one_pass gm bppf erfinv bad (GBSRegressor 0) false _ ex_rate p_heavy (1999/1000) 0 [g_value a; - g_value a; 0]
    {| p_factors := [1999/1000; 1999/1000]; p_exponents := zeros 2 |} [1999/1000 + g_value a; 1999/1000 - g_value a]).
  - unfold g_model. f_equal.
  - cbn [kind_scale kind_link]. unfold gbs_global_scale. cbn [p_heavy map w_row x_y x_w sumR map2].
    rewrite (proj2 (Reqb_false_iff _ _)) by lra. f_equal. field.
  - reflexivity.
  - reflexivity.
  - assert (Mn : f_mnl (bind_group p_heavy 0 (w_group explicit_mean)) = false) by reflexivity.
    set (f := bind_group p_heavy 0 (w_group explicit_mean)) in *. clearbody f.
    unfold new_factors. cbv zeta. cbn [snd]. unfold group_smoother, group_estimates. cbn [nth_error]. rewrite L, F.
    cbn [estimates]. change (map x_y p_heavy) with [2999/1000; 999/1000]. change (map x_w p_heavy) with [2; 2]. cbn [p_factors].
    rewrite g_heavy_estimates. fold a. rewrite Mn. cbn [map estimate_value estimate_uncertainty nth seq firstn s_zero init_fstate].
    cbn [w_group g_smoother]. unfold explicit_mean, cut_unseen, weighted_mean_bins.
    rewrite g_smoothed by auto. unfold bincounts. cbn [map seq nth bin_total Nat.eqb].
    rewrite !(proj2 (Reqb_false_iff _ _)) by lra. cbn [app]. unfold ex_rate, kind_calibration. cbn [map]. repeat (f_equal; try lra).
  - cbn [p_factors]. rewrite L. cbn. repeat (f_equal; try lra).
  - pose proof (g_bounds a Ha). cbn [kind_loss kind_link p_factors p_heavy w_row map x_y x_w]. unfold gbs_loss. cbn [map map2 sumR unlink_func].
    rewrite (proj2 (Reqb_false_iff (2999/1000) 0)), (proj2 (Reqb_false_iff (999/1000) 0)) by lra. cbn iota.
    set (v := g_value a) in *. clearbody v. rewrite !(proj2 (Reqb_false_iff _ 0)) by lra. nra.
Qed.
Lemma g_twice_fit : exists l, whole_fit gm bppf erfinv bad (GBSRegressor 0) false [w_group explicit_mean] w_cfg ex_rate 1 p_twice =
  Trained (g_model 6 l).
Proof.
  set (a := 6). assert (Ha : 0 < a) by (unfold a; lra).
  destruct (p_twice_lex explicit_mean) as [L F]. eexists.
  erewrite (one_pass gm bppf erfinv bad (GBSRegressor 0) false _ ex_rate p_twice (1999/1000) 0 [g_value a; - g_value a; 0]
    {| p_factors := [1999/1000; 1999/1000; 1999/1000; 1999/1000]; p_exponents := zeros 4 |}
    [1999/1000 + g_value a; 1999/1000 + g_value a; 1999/1000 - g_value a; 1999/1000 - g_value a]).
  - unfold g_model. f_equal.
  - cbn [kind_scale kind_link]. unfold gbs_global_scale. cbn [p_twice map w_row x_y x_w sumR map2].
    rewrite (proj2 (Reqb_false_iff _ _)) by lra. f_equal. field.
  - reflexivity.
  - reflexivity.
  - assert (Mn : f_mnl (bind_group p_twice 0 (w_group explicit_mean)) = false) by reflexivity.
    set (f := bind_group p_twice 0 (w_group explicit_mean)) in *. clearbody f.
    unfold new_factors. cbv zeta. cbn [snd]. unfold group_smoother, group_estimates. cbn [nth_error]. rewrite L, F.
    cbn [estimates]. change (map x_y p_twice) with [2999/1000; 2999/1000; 999/1000; 999/1000]. change (map x_w p_twice) with [1; 1; 1; 1]. cbn [p_factors].
    rewrite g_twice_estimates. fold a. rewrite Mn. cbn [map estimate_value estimate_uncertainty nth seq firstn s_zero init_fstate].
    cbn [w_group g_smoother]. unfold explicit_mean, cut_unseen, weighted_mean_bins.
    rewrite g_smoothed by auto. unfold bincounts. cbn [map seq nth bin_total Nat.eqb].
    rewrite !(proj2 (Reqb_false_iff _ _)) by lra. cbn [app]. unfold ex_rate, kind_calibration. cbn [map]. repeat (f_equal; try lra).
  - cbn [p_factors]. rewrite L. cbn. repeat (f_equal; try lra).
  - pose proof (g_bounds a Ha). cbn [kind_loss kind_link p_factors p_twice w_row map x_y x_w]. unfold gbs_loss. cbn [map map2 sumR unlink_func].
    rewrite (proj2 (Reqb_false_iff (2999/1000) 0)), (proj2 (Reqb_false_iff (999/1000) 0)) by lra. cbn iota.
    set (v := g_value a) in *. clearbody v. rewrite !(proj2 (Reqb_false_iff _ 0)) by lra. nra.
Qed.
End GRuns.

(** Without smoothing both data sets give the same contributions. *)
Lemma g_plain_fit gm bppf erfinv bad : exists l, whole_fit gm bppf erfinv bad (GBSRegressor 0) false [w_group bin_values] w_cfg ex_rate 1 p_heavy =
  Trained {| o_scale := 1999/1000; o_offset := 0;
     o_groups := [{| m_dim := 1; m_nbins := [2%Z]; m_ext := false; m_values := [2/3; -2/3]; m_missing := 0; m_smoother := true |}];
     o_iterations := 1; o_loss := l |}.
Proof.
  destruct (p_heavy_lex bin_values) as [L F]. eexists.
  erewrite (one_pass gm bppf erfinv bad (GBSRegressor 0) false _ ex_rate p_heavy (1999/1000) 0 [2/3; -2/3; 0]
    {| p_factors := [1999/1000; 1999/1000]; p_exponents := zeros 2 |} [1999/1000 + 2/3; 1999/1000 + -2/3]).
  - f_equal.
  - cbn [kind_scale kind_link]. unfold gbs_global_scale. cbn [p_heavy map w_row x_y x_w sumR map2].
    rewrite (proj2 (Reqb_false_iff _ _)) by lra. f_equal. field.
  - reflexivity.
  - reflexivity.
  - assert (Mn : f_mnl (bind_group p_heavy 0 (w_group bin_values)) = false) by reflexivity.
    set (f := bind_group p_heavy 0 (w_group bin_values)) in *. clearbody f.
    unfold new_factors. cbv zeta. cbn [snd]. unfold group_smoother, group_estimates. cbn [nth_error]. rewrite L, F.
    cbn [estimates]. change (map x_y p_heavy) with [2999/1000; 999/1000]. change (map x_w p_heavy) with [2; 2]. cbn [p_factors].
    rewrite g_heavy_estimates. rewrite Mn. cbn [map estimate_value estimate_uncertainty nth seq firstn s_zero init_fstate].
    cbn [w_group g_smoother]. unfold bin_values. cbn [nth_error app]. unfold ex_rate, kind_calibration. cbn [map]. repeat (f_equal; try lra).
  - cbn [p_factors]. rewrite L. cbn. repeat (f_equal; try lra).
  - cbn [kind_loss kind_link p_factors p_heavy w_row map x_y x_w]. unfold gbs_loss. cbn [map map2 sumR unlink_func].
    rewrite (proj2 (Reqb_false_iff (2999/1000) 0)), (proj2 (Reqb_false_iff (999/1000) 0)) by lra. cbn iota.
    rewrite !(proj2 (Reqb_false_iff _ 0)) by lra. lra.
Qed.

Theorem weights_gbs gm bppf erfinv bad : exists gs cfg rate fuel D D' m m',
  well_formed gs D /\ same_content D D' /\
  whole_fit gm bppf erfinv bad (GBSRegressor 0) false gs cfg rate fuel D = Trained m /\
  whole_fit gm bppf erfinv bad (GBSRegressor 0) false gs cfg rate fuel D' = Trained m' /\
  o_groups m <> o_groups m'.
Proof.
  destruct (g_heavy_fit gm bppf erfinv bad) as (l & H). destruct (g_twice_fit gm bppf erfinv bad) as (l' & T).
  exists [w_group explicit_mean], w_cfg, ex_rate, 1%nat, p_heavy, p_twice, (g_model 8 l), (g_model 6 l').
  split; [apply p_well_formed|]. split; [exact p_heavy_twice|]. split; [exact H|]. split; [exact T|].
  intro E. apply (f_equal (fun m => match m with g :: _ => hd 0 (m_values g) | [] => 0 end)) in E. cbn in E.
  unfold g_value in E. field_simplify in E. lra.
Qed.
