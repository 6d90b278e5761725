(** C74: the background subtraction regressor. *)
From Coq Require Import List Bool Reals.
From Verif.Model Require Import Train Estimators Regularize Gbs BinSmoothers.
From Verif.Spec Require Import EstimatorSpec GbsSpec.
From Verif.Proofs Require Import GbsFacts.
Import ListNotations.
Local Open Scope R_scope.

(** The estimate of a bin is the only minimiser of the penalised squared error of
    its rows, and adding it never increases the squared error. *)
Theorem C74_ridge : forall lex y w p al k, per_row lex y -> per_row lex w -> per_row lex p ->
  forall n, nonneg w -> 0 <= al -> (k < n)%nat ->
  exists s u, nth_error (gbs_parameters al lex n y w p) k = Some (Some (s, u)) /\
    (forall x, ridge_error lex y w p k al s <= ridge_error lex y w p k al x) /\
    (forall x, ridge_error lex y w p k al x = ridge_error lex y w p k al s -> x = s) /\
    bin_error lex y w p k s <= bin_error lex y w p k 0 /\ 0 <= u.
Proof. exact gbs_ridge. Qed.
Print Assumptions C74_ridge.

(** It is the weighted mean residual times a factor between 0 and 1. *)
Theorem C74_estimate : forall lex y w p al k, per_row lex y -> per_row lex w -> per_row lex p ->
  forall n s u, nonneg w -> 0 <= al -> (k < n)%nat -> 0 < bin_weight lex w k ->
  nth_error (gbs_parameters al lex n y w p) k = Some (Some (s, u)) ->
  s = mean_residual lex y w p k * (bin_weight lex w k / (1 + (1 + al) * bin_weight lex w k)).
Proof. exact gbs_shrink. Qed.
Print Assumptions C74_estimate.

(** So it is shrunk towards 0, the more the larger [regalpha]. *)
Theorem C74_shrinkage : forall lex y w p al n k s u, per_row lex y -> per_row lex w -> per_row lex p ->
  nonneg w -> 0 <= al -> (k < n)%nat -> 0 < bin_weight lex w k ->
  nth_error (gbs_parameters al lex n y w p) k = Some (Some (s, u)) ->
  0 <= s * mean_residual lex y w p k /\ Rabs s <= Rabs (mean_residual lex y w p k) /\
  (mean_residual lex y w p k <> 0 -> Rabs s < Rabs (mean_residual lex y w p k)) /\
  forall al' s' u', al < al' -> nth_error (gbs_parameters al' lex n y w p) k = Some (Some (s', u')) ->
    Rabs s' <= Rabs s /\ (mean_residual lex y w p k <> 0 -> Rabs s' < Rabs s).
Proof. exact gbs_towards_zero. Qed.
Print Assumptions C74_shrinkage.

(** The documented "a value of 0 corresponds to no regularization" is wrong for
    every bin with a residual. *)
Theorem C74_no_regularization_always_refuted : forall lex y w p n k s u,
  per_row lex y -> per_row lex w -> per_row lex p ->
  nonneg w -> (k < n)%nat -> 0 < bin_weight lex w k -> mean_residual lex y w p k <> 0 ->
  nth_error (gbs_parameters 0 lex n y w p) k = Some (Some (s, u)) -> s <> mean_residual lex y w p k.
Proof. exact gbs_always_regularised. Qed.
Print Assumptions C74_no_regularization_always_refuted.

Theorem C74_no_regularization_refuted : exists lex y w p k,
  mean_residual lex y w p k = 1 /\ bin_weight lex w k = 1 /\
  exists u, nth_error (gbs_parameters 0 lex 3 y w p) k = Some (Some (1 / 2, u)).
Proof. exact (ex_intro _ gb_lex (ex_intro _ gb_y (ex_intro _ gb_w (ex_intro _ gb_p (ex_intro _ 2%nat gb_unregularised))))). Qed.
Print Assumptions C74_no_regularization_refuted.

(** The baseline is the constant with the smallest weighted squared error. *)
Theorem C74_baseline : forall y w, length y = length w -> nonneg w -> 0 < sumR w ->
  exists g, gbs_global_scale y w = Some g /\
    forall g', sumR (map2 (fun v u => u * (v - g) ^ 2) y w) <= sumR (map2 (fun v u => u * (v - g') ^ 2) y w).
Proof. exact baseline_least_squares. Qed.
Print Assumptions C74_baseline.

(** A bin whose rows are predicted exactly, or that has no rows, gets the
    uncertainty 0. *)
Theorem C74_no_uncertainty_always_refuted : forall lex y w p al k, per_row lex y -> per_row lex w -> per_row lex p ->
  forall n s u, nonneg w -> 0 <= al -> (k < n)%nat ->
  (forall j, row_in lex k j -> nth j y 0 = nth j p 0 \/ nth j w 0 = 0) ->
  nth_error (gbs_parameters al lex n y w p) k = Some (Some (s, u)) -> s = 0 /\ u = 0.
Proof. exact gbs_zero_uncertainty. Qed.
Print Assumptions C74_no_uncertainty_always_refuted.

(** The default smoother of a categorical feature cannot deal with that: the
    targets -1, 0 and 1 of three categories, started at their mean, give NaN in
    every bin. *)
Theorem C74_finite_refuted : gbs_global_scale gb_y gb_w = Some 0 /\ gb_p = [0; 0; 0] /\ exists s0 u0 s1 u1 s2 u2,
  gbs_parameters 0 gb_lex 3 gb_y gb_w gb_p = [Some (s0, u0); Some (s1, u1); Some (s2, u2)] /\
  forall centres k, default_unordered centres [1; 1; 1] [u0; u1; u2] [s0; s1; s2] k = None.
Proof. exact (conj gb_global (conj eq_refl gb_smoothed)). Qed.
Print Assumptions C74_finite_refuted.

(** The loss is not negative where it is defined, and undefined if all targets are 0. *)
Theorem C74_loss : forall p y w l, nonneg w -> gbs_loss p y w = Some l -> 0 <= l.
Proof. exact gbs_loss_nonneg. Qed.
Print Assumptions C74_loss.

Theorem C74_loss_zero_targets : forall p y w, (forall v, In v y -> v = 0) -> gbs_loss p y w = None.
Proof. exact gbs_loss_zero_targets. Qed.
Print Assumptions C74_loss_zero_targets.

Example c74_rows : per_row gb_lex gb_y /\ per_row gb_lex gb_w /\ per_row gb_lex gb_p /\ nonneg gb_w.
Proof. exact gb_rows. Qed.
