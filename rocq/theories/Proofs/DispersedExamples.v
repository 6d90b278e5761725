(** A training of the negative binomial regressor with one group. *)
From Coq Require Import ZArith QArith Qround List Bool Reals Lra Lia.
From Verif.Model Require Import Num LexBins Train Predict Link Estimators WholeFit Regularize BinSmoothers.
From Verif.Spec Require Import DataSpec LexSpec PredictSpec InsampleSpec DescentSpec CellSpec PoissonCellSpec DispersedSpec.
From Verif.Proofs Require Import TrainFacts LinkFacts LexFacts TrainExamples WholeExamples MetaExamples InsampleFacts DescentFacts DescentExamples CellFacts CellExamples PoissonCell PoissonCellExamples DispersedCell.
Import ListNotations.
Local Open Scope R_scope.

Theorem heavy_if_full g a c top tol D : 0 < tol -> binned_rows [g] D -> Forall (fun s => 1 <= x_w s) D ->
  12/1000 * dispersion a c top <= tol -> heavy_cells a c top tol D.
Proof.
  intros T B W H s cell I C. destruct (full_if_heavy g D B W s cell I C) as [Z|P]; [left; exact Z|right].
  assert (tol * 1 <= tol * cell_weight cell D) by (apply Rmult_le_compat_l; lra). lra.
Qed.

Lemma counts_dispersed : dispersed_data 1 (1/2) 6 (1/10) plain_group counts.
Proof.
  split; [lra|]. split; [lra|]. split; [lra|]. split; [lra|]. split; [exact counts_binned|].
  split; [repeat apply Forall_cons; try apply Forall_nil; cbn [w_row x_w x_y]; split; lra|]. split; [unfold total_weight; cbn [counts fold_right w_row x_w x_y]; lra|]. split.
  - apply (heavy_if_full plain_group); [lra|exact counts_binned|repeat apply Forall_cons; try apply Forall_nil; cbn [w_row x_w x_y]; lra|unfold dispersion; lra].
  - intro c. unfold total_weight. cbn [counts length repeat squares fold_right w_row x_w x_y]. pose proof (pow2_ge_0 (c - 3)). lra.
Qed.

Theorem dispersed_case : forall bppf erfinv bad,
  median_near third_below /\ dispersed_data 1 (1/2) 6 (1/10) plain_group counts /\ g_smoother plain_group = bin_values /\ g_mnl plain_group = false /\
  cell_of counts (w_row 0 0 1) first_cell /\ cell_mean first_cell counts 1 /\ cell_weight first_cell counts = 2 /\
  forall eps, 0 < eps -> exists n t p,
    whole_fit third_below bppf erfinv bad (NBinomRegressor 1 (1/2)) false [plain_group] (l_cfg n) ex_rate n counts = Trained t /\
    exp (o_scale t) = 3001/1000 /\ nth_error (whole_predict (NBinomRegressor 1 (1/2)) false t counts) 0 = Some p /\ Rabs (p - 1) <= 27/1000 + eps.
Proof.
  intros bppf erfinv bad.
  assert (HM : median_near third_below) by (intros a _; unfold third_below; lra).
  split; [exact HM|]. split; [exact counts_dispersed|]. split; [reflexivity|]. split; [reflexivity|]. split; [exact counts_cell|].
  split; [exact counts_mean|]. split; [exact counts_weight|]. intros eps He.
  assert (R1 : forall it i, 1 <= ex_rate it i <= 1) by (intros; unfold ex_rate; lra).
  assert (R0 : forall it i, 0 <= ex_rate it i <= 1) by (intros; unfold ex_rate; lra).
  destruct (dispersed_limit third_below bppf erfinv bad 1 (1/2) 6 (1/10) plain_group ex_rate counts HM counts_dispersed eq_refl 1 ltac:(lra) R1
    0%nat (w_row 0 0 1) first_cell 1 eps eq_refl counts_cell counts_mean ltac:(rewrite counts_weight; lra) (or_introl eq_refl) He) as (n & H).
  destruct (dispersed_trains third_below bppf erfinv bad 1 (1/2) 6 (1/10) plain_group (l_cfg (S n)) ex_rate counts HM counts_dispersed R0 eq_refl (or_introl eq_refl) eq_refl eq_refl
    (S n) ltac:(cbn; lra) eq_refl ltac:(cbn; discriminate) ltac:(cbn; lia) ltac:(cbn; lra) ltac:(cbn [l_cfg c_minloss]; apply IZR_lt; reflexivity)) as (t & F & SC & N).
  assert (SC' : exp (o_scale t) = 3001/1000) by (rewrite SC; cbn; field).
  specialize (N ltac:(cbn; lra) ltac:(cbn; lra)). cbn [l_cfg c_maxiter] in N.
  destruct (nth_error (whole_predict (NBinomRegressor 1 (1/2)) false t counts) 0) as [p|] eqn:EP.
  - exists (S n), t, p. split; [exact F|]. split; [exact SC'|]. split; [exact EP|].
    specialize (H (l_cfg (S n)) (S n) t p (or_introl eq_refl) eq_refl eq_refl F ltac:(lia) EP). rewrite counts_weight, SC' in H.
    assert (L1 : limited (smallest_factor (g_dim plain_group) * (3001/1000)) (largest_factor (g_dim plain_group) * (3001/1000)) 1 = 1).
    { unfold limited, smallest_factor, largest_factor. cbn. unfold Rmin, Rmax. repeat destruct (Rle_dec _ _); lra. }
    rewrite L1 in H. unfold dispersion in H. lra.
  - exfalso. destruct (DispersedCell.trained_level third_below bppf erfinv bad 1 (1/2) 6 (1/10) plain_group (l_cfg (S n)) ex_rate counts HM counts_dispersed R0 eq_refl (or_introl eq_refl) eq_refl eq_refl (S n) t F) as (_ & L & _).
    apply nth_error_None in EP. rewrite L in EP. cbn in EP. lia.
Qed.
