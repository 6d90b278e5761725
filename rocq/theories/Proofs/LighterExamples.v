(** A training of the negative binomial regressor with constant dispersion. *)
From Coq Require Import ZArith QArith Qround List Bool Reals Lra Lia.
From Verif.Model Require Import Num LexBins Train Predict Link Estimators WholeFit Regularize BinSmoothers.
From Verif.Spec Require Import DataSpec LexSpec PredictSpec InsampleSpec DescentSpec CellSpec PoissonCellSpec LighterSpec.
From Verif.Proofs Require Import TrainFacts LinkFacts LexFacts TrainExamples WholeExamples MetaExamples InsampleFacts DescentFacts DescentExamples CellFacts CellExamples PoissonCell PoissonCellExamples LighterFacts.
Import ListNotations.
Local Open Scope R_scope.

Definition default_group : group := {| g_dim := 1; g_hier := false; g_mnl := false; g_smoother := default_unordered |}.

Lemma doubled_binned a : binned_rows [plain_group] (map (lighter a) counts).
Proof.
  destruct counts_binned as (A & B & C). split; [|split; [exact B|]].
  - intros r i g I G. apply in_map_iff in I. destruct I as (s & <- & I). exact (A s i g I G).
  - intros r i x I X. apply in_map_iff in I. destruct I as (s & <- & I). exact (C s i x I X).
Qed.
Lemma doubled_data : poisson_data plain_group (map (lighter (1/2)) counts).
Proof.
  split; [apply doubled_binned|]. split; [repeat apply Forall_cons; try apply Forall_nil; cbn [lighter w_row x_w x_y]; split; lra|].
  split; [unfold total_target, total_weight; cbn [counts map lighter fold_right w_row x_w x_y]; lra|]. split.
  - apply (full_if_heavy plain_group); [apply doubled_binned|repeat apply Forall_cons; try apply Forall_nil; cbn [lighter w_row x_w x_y]; lra].
  - intro c. unfold total_weight. cbn [counts map lighter length repeat squares fold_right w_row x_w x_y]. pose proof (pow2_ge_0 (c - 3)). lra.
Qed.
Theorem dispersed_case : forall bppf erfinv bad n, n <> 0%nat ->
  Forall (unmoved_by (1/2)) [plain_group; default_group] /\ median_near third_below /\ poisson_data plain_group (map (lighter (1/2)) counts) /\
  cell_of counts (w_row 0 0 1) first_cell /\ cell_mean first_cell counts 1 /\ cell_weight first_cell counts = 2 /\
  exists t, whole_fit third_below bppf erfinv bad (NBinomRegressor (1/2) 0) false [plain_group] (l_cfg n) ex_rate n counts = Trained t /\ o_iterations t = n.
Proof.
  intros bppf erfinv bad n Hn.
  assert (HM : median_near third_below) by (intros a _; unfold third_below; lra).
  assert (U1 : unmoved_by (1/2) plain_group) by (intros c w u v b; reflexivity).
  assert (R0 : forall it i, 0 <= ex_rate it i <= 1) by (intros; unfold ex_rate; lra).
  split; [constructor; [exact U1|constructor; [|constructor]]; intros c w u v b; apply unmoved_default; lra|].
  split; [exact HM|]. split; [exact doubled_data|]. split; [exact counts_cell|]. split; [exact counts_mean|]. split; [exact counts_weight|].
  destruct (trains third_below bppf erfinv bad plain_group (l_cfg n) ex_rate (map (lighter (1/2)) counts) HM doubled_data R0 eq_refl (or_introl eq_refl) eq_refl eq_refl
    n ltac:(cbn; lra) eq_refl Hn ltac:(cbn; lia) ltac:(cbn; lra) ltac:(cbn [l_cfg c_minloss]; apply IZR_lt; reflexivity)) as (t & F & _ & N).
  exists t. split; [|exact (N ltac:(cbn; lra) ltac:(cbn; lra))].
  rewrite (lighter_fit third_below bppf erfinv bad (1/2) ltac:(lra)) by (constructor; [exact U1|constructor]). exact F.
Qed.
