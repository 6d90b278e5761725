(** C75, C77: uncertainties and baseline of the loss-minimising modes. *)
From Coq Require Import List Bool Reals.
From Verif.Model Require Import Train Predict Link Estimators Quantile LossModes.
From Verif.Spec Require Import LinkSpec EstimatorSpec QuantileSpec.
From Verif.Proofs Require Import LossModeFacts.
Import ListNotations.
Local Open Scope R_scope.

(** ** C75 *)
(** Multiplicative modes: the width of a Gamma posterior; further rows never
    increase it; it is the uncertainty of the Poisson mode. *)
Theorem C75_gamma : forall y w, nonneg w -> nonneg y ->
  let alpha := 2 + sumR (map2 Rmult w y) in
  0 < uncertainty_gamma y w /\ uncertainty_gamma y w ^ 2 = ln (1 + 1 / alpha).
Proof. exact gamma_square. Qed.
Print Assumptions C75_gamma.

Theorem C75_gamma_more_evidence : forall y w y' w', length y = length w ->
  nonneg w -> nonneg y -> nonneg w' -> nonneg y' ->
  uncertainty_gamma (y ++ y') (w ++ w') <= uncertainty_gamma y w.
Proof. exact gamma_more_evidence. Qed.
Print Assumptions C75_gamma_more_evidence.

Theorem C75_gamma_as_poisson : forall gamma_median y w b,
  snd (calc_factors_and_uncertainties gamma_median [sumR (map2 Rmult w y)] [b]) = [uncertainty_gamma y w].
Proof. exact gamma_is_poisson. Qed.
Print Assumptions C75_gamma_as_poisson.

(** Additive modes: positive for rows with weight; [v] is the estimated variance
    of the target in the bin. *)
Theorem C75_gaussian_partial : forall y w, y <> [] -> length w = length y -> nonneg w -> 0 < sumR w ->
  exists u v, uncertainty_gaussian y w = Some u /\ 0 < u /\ 0 < v /\
    u ^ 2 = (sumR (map (fun x => x ^ 2) w) / v + 1 / 100) / (sumR w / v + 1 / 100) ^ 2 /\
    let m := sumR (map2 Rmult y w) / sumR w in
    let rss := sumR (map2 (fun w v => w * (v - m) ^ 2) w y) in
    v = ((if Rle_dec (rss / sumR w) (1 / 1000000000) then 1 else rss / sumR w) + rss) / (1 + sumR w).
Proof. exact gaussian_spec. Qed.
Print Assumptions C75_gaussian_partial.

Theorem C75_gaussian_unit : forall y, y <> [] ->
  exists u v, uncertainty_gaussian y (map (fun _ => 1) y) = Some u /\ 0 < u < 10 /\ 0 < v /\
    u ^ 2 = 1 / (INR (length y) / v + 1 / 100).
Proof. exact gaussian_unit. Qed.
Print Assumptions C75_gaussian_unit.

Theorem C75_gaussian_empty : forall w, uncertainty_gaussian [] w = Some 10.
Proof. exact gaussian_empty. Qed.
Print Assumptions C75_gaussian_empty.

(** But a bin whose rows have no weight gets NaN. *)
Theorem C75_weightless_always_refuted : forall y w, y <> [] -> sumR w = 0 -> uncertainty_gaussian y w = None.
Proof. exact gaussian_weightless. Qed.
Print Assumptions C75_weightless_always_refuted.

Theorem C75_weightless_refuted : exists y w, nonneg w /\ length y = length w /\ uncertainty_gaussian y w = None.
Proof. exact ex_weightless. Qed.
Print Assumptions C75_weightless_refuted.

(** Classification: the width of the classifier's estimate for the same
    evidence. *)
Theorem C75_beta : forall ppf erfinv,
  (forall a b q, 0 < a -> 0 < b -> 0 < q < 1 -> 0 < ppf a b q < 1) ->
  (forall a b q q', 0 < a -> 0 < b -> 0 < q -> q < q' -> q' < 1 -> ppf a b q < ppf a b q') ->
  (forall t t', -1 < t -> t < t' -> t' < 1 -> erfinv t < erfinv t') ->
  forall y w, nonneg w -> (forall x, In x y -> x = 0 \/ x = 1) ->
  exists u mu, uncertainty_beta ppf erfinv y w = Some u /\ 0 < u /\
    classifier_bin ppf erfinv (sumR (map2 Rmult w y)) (sumR (map2 (fun w v => w * (1 - v)) w y)) = Some (mu, u).
Proof. exact beta_uncertainty. Qed.
Print Assumptions C75_beta.

Example c75_data : nonneg [1; 2] /\ uncertainty_gaussian [3; 5] [0; 0] = None /\ uncertainty_gaussian [] [] = Some 10.
Proof. exact ex_loss_modes. Qed.

(** ** C77 *)
(** Distinct targets: without feature contributions the weighted quantile is
    predicted, if it has a finite link. *)
Theorem C77_baseline_partial : forall sort l q rows X offset,
  sorts sort -> weighted_rows rows -> 0 < q <= 1 -> NoDup (map fst rows) ->
  exists v, is_quantile q rows v /\
    (interior l v -> exists scale, quantile_global_scale sort l rows q = Some scale /\
       cb_predict (unlink_func l) scale offset [] None X = repeat v (List.length X)) /\
    (~ interior l v -> quantile_global_scale sort l rows q = None).
Proof. exact quantile_baseline. Qed.
Print Assumptions C77_baseline_partial.

(** Multiplicative quantile regression accepts the target 0, but has no finite
    starting point if the quantile is 0. *)
Theorem C77_zero_quantile_always_refuted : forall sort q rows,
  sorts sort -> weighted_rows rows -> 0 < q <= 1 -> NoDup (map fst rows) ->
  is_quantile q rows 0 -> quantile_global_scale sort Log rows q = None.
Proof. exact zero_quantile_no_baseline. Qed.
Print Assumptions C77_zero_quantile_always_refuted.

Theorem C77_zero_quantile_refuted : exists rows, (weighted_rows rows /\ NoDup (map fst rows) /\
  (forall r, In r rows -> 0 <= fst r) /\ is_quantile (1 / 5) rows 0) /\
  forall sort, sorts sort -> quantile_global_scale sort Log rows (1 / 5) = None.
Proof. exact (ex_intro _ zq_rows (conj ex_zero_quantile ex_zero_baseline)). Qed.
Print Assumptions C77_zero_quantile_refuted.
