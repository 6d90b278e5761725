(** C127: trained models compared with the constant baseline. *)
From Coq Require Import ZArith QArith List Bool Reals Lra.
From Verif.Model Require Import Num Train WholeFit BinSmoothers.
From Verif.Spec Require Import InsampleSpec ConstantSpec.
From Verif.Proofs Require Import TrainExamples WholeExamples ConstantFacts ConstantExamples.
Import ListNotations.
Local Open Scope R_scope.

(** On its training data a trained model deviates from the targets at most twice as much as
    the constant baseline. *)
Theorem C127_at_most_twice : forall gm bppf erfinv bad k gs cfg rate fuel D t,
  c_aggregate cfg = true -> binned_rows gs D -> Forall (fun s => 0 <= x_w s) D ->
  whole_fit gm bppf erfinv bad k false gs cfg rate fuel D = Trained t ->
  defined_loss k D -> usable_targets k D ->
  mean_deviation k D (whole_predict k false t D) <= 2 * mean_deviation k D (baseline k t (length D)).
Proof. exact at_most_twice. Qed.
Print Assumptions C127_at_most_twice.

(** If all targets are the same, the mean squared deviation of the predictions from it is
    at most 2/1000^2. *)
Theorem C127_constant_targets : forall gm bppf erfinv bad k gs cfg rate fuel D t,
  c_aggregate cfg = true -> binned_rows gs D -> Forall (fun s => 0 <= x_w s) D ->
  whole_fit gm bppf erfinv bad k false gs cfg rate fuel D = Trained t -> defined_loss k D ->
  forall c, Forall (fun s => x_y s = c) D -> total_weight D <> 0 ->
  (forall regalpha, k <> GBSRegressor regalpha) -> usable_targets k D ->
  mean_deviation k D (whole_predict k false t D) <= 2 * (1 / 1000) ^ 2.
Proof. exact constant_close. Qed.
Print Assumptions C127_constant_targets.

(** The background subtraction regressor then predicts it exactly, for every training row
    with weight. *)
Theorem C127_background : forall gm bppf erfinv bad regalpha gs cfg rate fuel D t c,
  c_aggregate cfg = true -> binned_rows gs D -> Forall (fun s => 0 <= x_w s) D ->
  whole_fit gm bppf erfinv bad (GBSRegressor regalpha) false gs cfg rate fuel D = Trained t ->
  Forall (fun s => x_y s = c) D -> total_weight D <> 0 -> c <> 0 ->
  forall j s p, nth_error D j = Some s -> 0 < x_w s ->
  nth_error (whole_predict (GBSRegressor regalpha) false t D) j = Some p -> p = c.
Proof. exact constant_exact. Qed.
Print Assumptions C127_background.

(** With smoothers that make nothing out of nothing it does not diverge, and predicts the
    constant for all rows whatsoever. *)
Theorem C127_background_everywhere : forall gm bppf erfinv bad regalpha gs cfg rate D c,
  0 <= regalpha -> Forall (fun s => 0 <= x_w s) D -> Forall (fun s => x_y s = c) D -> c <> 0 -> total_weight D <> 0 ->
  Forall (fun g => keeps_zero (g_smoother g)) gs -> c_log cfg = false -> c_aggregate cfg = true ->
  forall fuel, whole_fit gm bppf erfinv bad (GBSRegressor regalpha) false gs cfg rate fuel D <> Failed ConvergenceError /\
  forall t X, whole_fit gm bppf erfinv bad (GBSRegressor regalpha) false gs cfg rate fuel D = Trained t ->
    whole_predict (GBSRegressor regalpha) false t X = repeat c (length X).
Proof. exact constant_predicted. Qed.
Print Assumptions C127_background_everywhere.

(** These smoothers do, the default one among them. *)
Theorem C127_smoothers : keeps_zero bin_values /\ keeps_zero (weighted_mean_bins None) /\ keeps_zero (weighted_mean_bins (Some 0)) /\
  keeps_zero default_unordered /\ keeps_zero explicit_mean.
Proof.
  exact (conj values_keep (conj (mean_keeps None Logic.I) (conj (mean_keeps (Some 0) eq_refl)
    (conj default_keeps (cut_keeps _ (mean_keeps None Logic.I)))))).
Qed.
Print Assumptions C127_smoothers.

(** That the other estimators can be trained on constant targets at all is refuted: with the
    default settings, training on two rows with the target 10, one of them with a missing
    value, ends with a ConvergenceError. The median of the gamma distribution with the shape
    12 is 11.6684. *)
Theorem C127_training_refuted : forall gm bppf erfinv bad g, 11668 / 1000 < gm 12 < 11669 / 1000 ->
  g_dim g = 1%nat -> g_hier g = false -> g_mnl g = false -> (g_smoother g = bin_values \/ g_smoother g = default_unordered) ->
  Forall (fun s => x_y s = 10) tens /\
  whole_fit gm bppf erfinv bad PoissonRegressor false [g] d_cfg d_rate 9 tens = Failed ConvergenceError.
Proof.
  intros gm bppf erfinv bad g G Gd Gh Gm Gs. split; [exact (proj1 (proj2 tens_constant))|].
  apply gives_up; auto. intros c u v. destruct Gs as [-> | ->]; [apply values_group|apply default_group].
Qed.
Print Assumptions C127_training_refuted.

(** The hypotheses are met: without the missing value the training returns to the
    baseline after two divergences. *)
Example c127_case : forall gm bppf erfinv bad, 11668 / 1000 < gm 12 < 11669 / 1000 -> 16 / 10 < gm 2 < 17 / 10 ->
  c_aggregate d_cfg = true /\ binned_rows [e_group] ten /\ Forall (fun s => 0 <= x_w s) ten /\
  Forall (fun s => x_y s = 10) ten /\ total_weight ten <> 0 /\
  exists t, whole_fit gm bppf erfinv bad PoissonRegressor false [e_group] d_cfg ex_rate 4 ten = Trained t /\ o_iterations t = 4%nat.
Proof.
  exact (fun gm bppf erfinv bad G G2 => conj eq_refl (conj ten_binned (conj (proj1 ten_constant) (conj (proj1 (proj2 ten_constant))
    (conj (proj2 (proj2 ten_constant)) (ten_run gm bppf erfinv bad G G2)))))).
Qed.
Example c127_background_case : forall gm bppf erfinv bad,
  binned_rows [w_group default_unordered] tens /\ Forall (fun s => 0 <= x_w s) tens /\ Forall (fun s => x_y s = 10) tens /\
  total_weight tens <> 0 /\ c_log w_cfg = false /\ c_aggregate w_cfg = true /\
  exists t, whole_fit gm bppf erfinv bad (GBSRegressor 0) false [w_group default_unordered] w_cfg ex_rate 1 tens = Trained t.
Proof.
  exact (fun gm bppf erfinv bad => conj tens_binned (conj (proj1 tens_constant) (conj (proj1 (proj2 tens_constant))
    (conj (proj2 (proj2 tens_constant)) (conj eq_refl (conj eq_refl (tens_gbs gm bppf erfinv bad))))))).
Qed.
