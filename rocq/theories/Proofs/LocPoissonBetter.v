(** More passes of the Poisson-like location regressor do not make the predictions worse. *)
From Coq Require Import ZArith QArith List Bool Reals Lia Lra Psatz.
From Verif.Model Require Import Num LexBins Train Predict Link Estimators Regularize BinSmoothers WholeFit.
From Verif.Spec Require Import TrainSpec DataSpec LexSpec PredictSpec LinkSpec EstimatorSpec RegularizeSpec InsampleSpec CellSpec LocationCellSpec LocPoissonCellSpec.
From Verif.Proofs Require Import TrainFacts ImportanceFacts LinkFacts EstimatorFacts InsampleFacts TotalFacts DescentFacts CellFacts CentredDescent LocationCell LocPoissonCell.
Import ListNotations.
Local Open Scope R_scope.

Lemma squares_sum : forall D P, length P = length D ->
  squares D P = sumR (map2 Rmult (map2 (fun p v => (p - v) * (p - v)) P (map x_y D)) (map x_w D)).
Proof.
  induction D as [|s D IH]; intros [|p P] L; try discriminate; [reflexivity|]. cbn [squares map map2 sumR]. rewrite IH by (cbn in L; lia). ring.
Qed.

Section Better.
Variables (gm : R -> R) (bppf : R -> R -> R -> R) (erfinv : R -> R) (bad : R).
Variables (g : group) (rate : nat -> nat -> R) (D : list sample).
Hypothesis HB : binned_rows [g] D.
Hypothesis HW : Forall (fun s => 0 < x_w s) D.
Hypothesis HT : poisson_targets D.
Hypothesis HR : forall it i, 0 <= rate it i <= 1.
Hypothesis HS : g_smoother g = bin_values.
Notation wt := (fun j => nth j (map x_w D) 0).

Lemma trained_squares cfg fuel t : (c_hier cfg = false \/ g_hier g = true) -> c_log cfg = false -> c_aggregate cfg = true ->
  whole_fit gm bppf erfinv bad LocPoissonRegressor false [g] cfg rate fuel D = Trained t ->
  squares D (whole_predict LocPoissonRegressor false t D) = within g D + norm (length D) wt (res g rate D (o_iterations t)).
Proof.
  intros HH HL HA F.
  destruct (trained_level gm bppf erfinv bad g cfg rate D HB HW HT HR HS HH HL HA fuel t F) as (_ & LP & H).
  set (P := whole_predict LocPoissonRegressor false t D) in *.
  rewrite <- (loss_is bad g D HB HW HT {| p_factors := P; p_exponents := zeros (length D) |} _ LP H (res_constant g rate D _)).
  cbn [p_factors]. unfold kind_loss, squared_loss. cbn [kind_link]. rewrite (map_ext (unlink_func Identity) (fun x => x)) by reflexivity. rewrite map_id.
  rewrite <- squares_sum by exact LP. rewrite w_sum. pose proof (weight_total g D HB HW HT) as WT. cbv beta in WT |- *. field. lra.
Qed.

Lemma left_decreasing h : 0 <= h < 1 -> forall T k, 0 <= distance_left (fun it => rate it 0%nat) h (k + T) <= distance_left (fun it => rate it 0%nat) h T.
Proof.
  intros Hh T. induction k as [|k IH]; cbn [plus].
  - assert (X : 0 <= distance_left (fun it => rate it 0%nat) h T); [|lra].
    induction T as [|T IT]; cbn [distance_left]; [lra|]. pose proof (HR T 0%nat). apply Rmult_le_pos; [exact IT|]. nra.
  - cbn [distance_left]. pose proof (HR (k + T) 0%nat) as Q. set (a := rate (k + T)%nat 0%nat) in *. set (x := distance_left _ h (k + T)) in *.
    assert (0 <= a * h <= 1) by (split; nra). set (z := a * h) in *. clearbody a x z. split; nra.
Qed.

Theorem locpoisson_better : forall cfg fuel t cfg' fuel' t',
  (c_hier cfg = false \/ g_hier g = true) -> c_log cfg = false -> c_aggregate cfg = true ->
  (c_hier cfg' = false \/ g_hier g = true) -> c_log cfg' = false -> c_aggregate cfg' = true ->
  whole_fit gm bppf erfinv bad LocPoissonRegressor false [g] cfg rate fuel D = Trained t ->
  whole_fit gm bppf erfinv bad LocPoissonRegressor false [g] cfg' rate fuel' D = Trained t' ->
  (o_iterations t <= o_iterations t')%nat ->
  squares D (whole_predict LocPoissonRegressor false t' D) <= squares D (whole_predict LocPoissonRegressor false t D).
Proof.
  intros cfg fuel t cfg' fuel' t' A1 A2 A3 B1 B2 B3 F F' N.
  rewrite (trained_squares cfg fuel t A1 A2 A3 F), (trained_squares cfg' fuel' t' B1 B2 B3 F').
  apply Rplus_le_compat_l. unfold norm. apply total_le. intros j J.
  apply Rmult_le_compat_l; [apply nonneg_at, w_nonneg, HW|].
  unfold res. pose proof (left_decreasing (row_share g D j) (row_share_range g D HB HW HT j J) (o_iterations t) (o_iterations t' - o_iterations t)) as X.
  rewrite Nat.sub_add in X by exact N. set (p := distance_left _ _ (o_iterations t')) in *. set (q := distance_left _ _ (o_iterations t)) in *.
  set (d := _ - _). clearbody p q d. replace (d * p * (d * p)) with (d * d * (p * p)) by ring. replace (d * q * (d * q)) with (d * d * (q * q)) by ring.
  apply Rmult_le_compat_l; [apply Rle_0_sqr|nra].
Qed.
End Better.
