(** The Poisson regressor with one group and groups without values. *)
From Coq Require Import ZArith QArith Qround List Bool Reals Lra Lia FunctionalExtensionality.
From Verif.Model Require Import Num LexBins Train Predict Link Estimators WholeFit Regularize BinSmoothers.
From Verif.Spec Require Import TrainSpec DataSpec LexSpec PredictSpec InsampleSpec HierSpec CellSpec PoissonCellSpec InertSpec.
From Verif.Proofs Require Import TrainFacts TrainExamples WholeExamples DescentExamples CellExamples PoissonCell PoissonCellExamples InertWhole InertExamples.
Import ListNotations.
Local Open Scope R_scope.

Lemma poisson_calm gm bppf erfinv bad g cfg rate D : median_near gm -> poisson_data g D -> (forall it i, 0 <= rate it i <= 1) ->
  g_smoother g = bin_values -> (c_hier cfg = false \/ g_hier g = true) -> c_log cfg = true -> c_aggregate cfg = true ->
  never_diverging gm bppf erfinv bad PoissonRegressor false [g] cfg rate D.
Proof.
  intros HM HP HR HS HH Hlog Hagg sc off st Esc _ RS. unfold training_state in RS. cbv zeta in RS. cbn [linked_column prior_predictions bind_groups] in RS.
  assert (K : PoissonCell.reached gm bad g rate D sc st).
  { induction RS as [|st st' RS IH C E].
    - exact (reached_init gm bad g rate D HP sc Esc).
    - destruct (PoissonCell.reached_next gm bppf erfinv bad g cfg rate D HM HP sc Esc HR HS HH Hlog Hagg st IH) as (s1 & E1 & G1 & _).
      cbv beta in E1, E |- *. rewrite E1 in E. injection E as <-. exact G1. }
  exact (proj1 (proj2 (proj2 K))).
Qed.

(** Adding a group without values to the single group of a Poisson regressor changes nothing. *)
Theorem poisson_alone gm bppf erfinv bad g e cfg rate D : median_near gm -> poisson_data g (map (row_without 1) D) ->
  (forall it i, 0 <= rate it i <= 1) -> g_smoother g = bin_values -> (c_hier cfg = false \/ g_hier g = true) ->
  c_log cfg = true -> c_aggregate cfg = true -> c_minfactor cfg < 0 ->
  g_mnl e = true -> (1 <= g_dim e)%nat -> no_values 1 D ->
  forall fuel, same_result 1 PoissonRegressor false (whole_fit gm bppf erfinv bad PoissonRegressor false [g; e] cfg rate fuel D)
    (whole_fit gm bppf erfinv bad PoissonRegressor false [g] cfg (fun it j => rate it (place 1 j)) fuel (map (row_without 1) D)).
Proof.
  intros HM HP HR HS HH Hlog Hagg Hm Me De NV fuel.
  assert (ND : never_diverging gm bppf erfinv bad PoissonRegressor false [g] cfg (fun it j => rate it (place 1 j)) (map (row_without 1) D)) by (apply poisson_calm; auto).
  exact (same_training gm bppf erfinv bad PoissonRegressor false [g; e] cfg rate D 1 e eq_refl Me De NV (or_intror ND) fuel Hm ltac:(discriminate) (or_intror (or_intror ND))).
Qed.

Definition counts_empty : list sample := map e_row counts.
Lemma counts_back : map (row_without 1) counts_empty = counts.
Proof.
  unfold counts_empty, counts, row_without, e_row, w_row, w_bins. cbn [map x_bins x_prior x_y x_w].
  assert (E : forall q, (fun j => if Nat.eqb (place 1 j) 1 then [NaN] else [Fin q]) = (fun _ : nat => [Fin q])).
  { intro q. extensionality j. destruct j as [|[|j]]; reflexivity. }
  rewrite !E. reflexivity.
Qed.
Theorem poisson_empty_case : forall bppf erfinv bad n, n <> 0%nat ->
  median_near third_below /\ poisson_data plain_group (map (row_without 1) counts_empty) /\ no_values 1 counts_empty /\
  exists t, whole_fit third_below bppf erfinv bad PoissonRegressor false [plain_group; empty_group] (l_cfg n) ex_rate n counts_empty = Trained t /\ o_iterations t = n.
Proof.
  intros bppf erfinv bad n Hn.
  assert (HM : median_near third_below) by (intros a _; unfold third_below; lra).
  assert (NV : no_values 1 counts_empty).
  { intros s Hs. apply in_map_iff in Hs as (r & <- & _). exists NaN. split; [left; reflexivity|]. left. reflexivity. }
  assert (HP : poisson_data plain_group (map (row_without 1) counts_empty)) by (rewrite counts_back; exact counts_data).
  assert (R0 : forall it i, 0 <= ex_rate it i <= 1) by (intros; unfold ex_rate; lra).
  split; [exact HM|]. split; [exact HP|]. split; [exact NV|].
  pose proof (poisson_alone third_below bppf erfinv bad plain_group empty_group (l_cfg n) ex_rate counts_empty HM HP R0 eq_refl (or_introl eq_refl) eq_refl eq_refl
    ltac:(cbn; lra) eq_refl ltac:(cbn; lia) NV n) as SR.
  destruct (trains third_below bppf erfinv bad plain_group (l_cfg n) (fun it j => ex_rate it (place 1 j)) counts HM counts_data ltac:(intros; apply R0) eq_refl (or_introl eq_refl) eq_refl eq_refl
    n ltac:(cbn; lra) eq_refl Hn ltac:(cbn; lia) ltac:(cbn; lra) ltac:(cbn [l_cfg c_minloss]; apply IZR_lt; reflexivity)) as (t' & F & _ & N).
  specialize (N ltac:(cbn; lra) ltac:(cbn; lra)). cbn [l_cfg c_maxiter] in N.
  rewrite counts_back, F in SR. unfold same_result in SR.
  destruct (whole_fit third_below bppf erfinv bad PoissonRegressor false [plain_group; empty_group] (l_cfg n) ex_rate n counts_empty) eqn:E; try contradiction.
  eexists. split; [reflexivity|]. destruct SR as (_ & _ & I & _). congruence.
Qed.
