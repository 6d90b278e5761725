(** A training of the Poisson regressor with one group. *)
From Coq Require Import ZArith QArith Qround List Bool Reals Lra Lia.
From Verif.Model Require Import Num LexBins Train Predict Link Estimators WholeFit Regularize BinSmoothers.
From Verif.Spec Require Import DataSpec LexSpec PredictSpec InsampleSpec DescentSpec CellSpec PoissonCellSpec.
From Verif.Proofs Require Import TrainFacts LinkFacts LexFacts TrainExamples WholeExamples MetaExamples InsampleFacts DescentFacts DescentExamples CellFacts CellExamples PoissonCell.
Import ListNotations.
Local Open Scope R_scope.

Definition counts : list sample := [w_row 0 0 1; w_row 0 2 1; w_row 1 4 1; w_row 1 6 1].
Definition third_below (a : R) : R := a - 1/3.
Definition l_cfg (n : nat) : settings :=
  {| c_log := true; c_aggregate := true; c_hier := false; c_thier := 0; c_maxiter := n; c_minfactor := -1; c_minloss := -1 |}.

Lemma counts_binned : binned_rows [plain_group] counts.
Proof.
  destruct plain_binned as (A & B & C). split; [|split; [exact B|]].
  - intros r [|i] g I G; cbn in G; [|destruct i; discriminate]. injection G as <-.
    repeat (destruct I as [<-|I]; [reflexivity|]). destruct I.
  - intros r i x I X.
    assert (I' : exists r', In r' noisy /\ x_bins r i = x_bins r' i).
    { repeat (destruct I as [<-|I]; [first [exists (w_row 0 101 1); split; [left; reflexivity|reflexivity]
        |exists (w_row 1 (199/2) 1); split; [right; right; left; reflexivity|reflexivity]]|]). destruct I. }
    destruct I' as (r' & I' & E). rewrite E in X. exact (C r' i x I' X).
Qed.
Lemma counts_data : poisson_data plain_group counts.
Proof.
  split; [exact counts_binned|]. split; [repeat apply Forall_cons; try apply Forall_nil; cbn [w_row x_w x_y]; split; lra|]. split; [unfold total_target, total_weight; cbn [counts fold_right w_row x_w x_y]; lra|]. split.
  - apply (full_if_heavy plain_group); [exact counts_binned|repeat apply Forall_cons; try apply Forall_nil; cbn [w_row x_w x_y]; lra].
  - intro c. unfold total_weight. cbn [counts length repeat squares fold_right w_row x_w x_y]. pose proof (pow2_ge_0 (c - 3)). lra.
Qed.
Lemma counts_cell : cell_of counts (w_row 0 0 1) first_cell.
Proof.
  assert (A : same_cell [Fin 0] [Fin 0]).
  { left. exists [0%Z]. split; apply (holds_w 0 0); reflexivity. }
  assert (S0 : forall t, holds_tuple [Fin 0] t -> t = [0%Z]).
  { intros t H. inversion H as [|? k ? t' (q & E & Q) H']; subst. inversion H'; subst. injection E as <-. f_equal.
    symmetry. apply inject_Z_injective. exact Q. }
  assert (B : ~ same_cell [Fin 0] [Fin 1]).
  { intros [(t & H1 & H2)|(M & _)]; [|apply (not_missing_w 0 ltac:(lia)); exact M].
    rewrite (S0 t H1) in H2. apply (holds_w 1 0) in H2. discriminate. }
  intros s' I. unfold first_cell.
  repeat (destruct I as [<-|I]; [cbn [x_bins w_row w_bins]; split; [intro X; try exact A; discriminate|intro X; try reflexivity; contradiction]|]).
  destruct I.
Qed.
Lemma counts_weight : cell_weight first_cell counts = 2.
Proof. unfold cell_weight, first_cell, counts. cbn [cell_sum x_bins w_row w_bins x_w]. cbn. lra. Qed.
Lemma counts_mean : cell_mean first_cell counts 1.
Proof. unfold cell_mean. rewrite counts_weight. unfold first_cell, counts. cbn [cell_sum x_bins w_row w_bins x_w x_y]. cbn. lra. Qed.

Theorem poisson_case : forall bppf erfinv bad,
  median_near third_below /\ poisson_data plain_group counts /\ g_smoother plain_group = bin_values /\ g_mnl plain_group = false /\
  cell_of counts (w_row 0 0 1) first_cell /\ cell_mean first_cell counts 1 /\ cell_weight first_cell counts = 2 /\
  forall eps, 0 < eps -> exists n t p,
    whole_fit third_below bppf erfinv bad PoissonRegressor false [plain_group] (l_cfg n) ex_rate n counts = Trained t /\
    exp (o_scale t) = 3001/1000 /\ nth_error (whole_predict PoissonRegressor false t counts) 0 = Some p /\ Rabs (p - 1) <= 6/1000 + eps.
Proof.
  intros bppf erfinv bad.
  assert (HM : median_near third_below) by (intros a _; unfold third_below; lra).
  split; [exact HM|]. split; [exact counts_data|]. split; [reflexivity|]. split; [reflexivity|]. split; [exact counts_cell|].
  split; [exact counts_mean|]. split; [exact counts_weight|]. intros eps He.
  assert (R1 : forall it i, 1 <= ex_rate it i <= 1) by (intros; unfold ex_rate; lra).
  assert (R0 : forall it i, 0 <= ex_rate it i <= 1) by (intros; unfold ex_rate; lra).
  destruct (poisson_limit third_below bppf erfinv bad plain_group ex_rate counts HM counts_data eq_refl 1 ltac:(lra) R1
    0%nat (w_row 0 0 1) first_cell 1 eps eq_refl counts_cell counts_mean ltac:(rewrite counts_weight; lra) (or_introl eq_refl) He) as (n & H).
  destruct (trains third_below bppf erfinv bad plain_group (l_cfg (S n)) ex_rate counts HM counts_data R0 eq_refl (or_introl eq_refl) eq_refl eq_refl
    (S n) ltac:(cbn; lra) eq_refl ltac:(cbn; discriminate) ltac:(cbn; lia) ltac:(cbn; lra) ltac:(cbn [l_cfg c_minloss]; apply IZR_lt; reflexivity)) as (t & F & SC & N).
  assert (SC' : exp (o_scale t) = 3001/1000) by (rewrite SC; cbn; field).
  specialize (N ltac:(cbn; lra) ltac:(cbn; lra)). cbn [l_cfg c_maxiter] in N.
  destruct (nth_error (whole_predict PoissonRegressor false t counts) 0) as [p|] eqn:EP.
  - exists (S n), t, p. split; [exact F|]. split; [exact SC'|]. split; [exact EP|].
    specialize (H (l_cfg (S n)) (S n) t p (or_introl eq_refl) eq_refl eq_refl F ltac:(lia) EP). rewrite counts_weight, SC' in H.
    assert (L1 : limited (smallest_factor (g_dim plain_group) * (3001/1000)) (largest_factor (g_dim plain_group) * (3001/1000)) 1 = 1).
    { unfold limited, smallest_factor, largest_factor. cbn. unfold Rmin, Rmax. repeat destruct (Rle_dec _ _); lra. }
    rewrite L1 in H. lra.
  - exfalso. destruct (trained_level third_below bppf erfinv bad plain_group (l_cfg (S n)) ex_rate counts HM counts_data R0 eq_refl (or_introl eq_refl) eq_refl eq_refl (S n) t F) as (_ & L & _).
    apply nth_error_None in EP. rewrite L in EP. cbn in EP. lia.
Qed.
