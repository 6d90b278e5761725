(** C40, C41, C65, C66: quantile-parametrised distributions and the quantile regressor
    chain. *)
From Coq Require Import List Bool Reals.
From Verif.Model Require Import Train Qpd.
From Verif.Spec Require Import QpdSpec.
From Verif.Proofs Require Import QpdFacts ChainFacts.
Import ListNotations.
Local Open Scope R_scope.

(** ** C40 *)
(** The distributions with a lower bound. Missing in this and the following theorems:
    triplets without skewness in the internal space, where the property fails (see below). *)
Theorem C40_semibounded_partial : forall phi alpha t l, base_distribution phi -> 0 < alpha < 1 / 2 -> ordered t -> l < qv_low t ->
  (qv_low t - l) * (qv_high t - l) <> (qv_median t - l) ^ 2 ->
  interpolates alpha t (ppf_s_opt phi (fit_s phi alpha t l)) (cdf_s_opt phi (fit_s phi alpha t l)) (above l).
Proof. exact (fun phi alpha t l BD HA => semibounded phi alpha BD HA t l). Qed.
Print Assumptions C40_semibounded_partial.

(** The distributions with two bounds. *)
Theorem C40_bounded_partial : forall phi alpha t l u, base_distribution phi -> 0 < alpha < 1 / 2 -> ordered t ->
  l < qv_low t -> qv_high t < u ->
  d_ppf phi ((qv_low t - l) / (u - l)) + d_ppf phi ((qv_high t - l) / (u - l)) <> 2 * d_ppf phi ((qv_median t - l) / (u - l)) ->
  interpolates alpha t (ppf_b_opt phi (fit_b phi alpha t l u)) (cdf_b_opt phi (fit_b phi alpha t l u)) (between l u).
Proof. exact (fun phi alpha t l u BD HA => bounded phi alpha BD HA t l u). Qed.
Print Assumptions C40_bounded_partial.

(** At the bounds the cdf is zero and one. *)
Theorem C40_lower_end : forall phi alpha t l, fit_s phi alpha t l <> None -> cdf_s_opt phi (fit_s phi alpha t l) l = Some 0.
Proof. exact ends_s. Qed.
Print Assumptions C40_lower_end.
Theorem C40_both_ends : forall phi alpha t l u, fit_b phi alpha t l u <> None ->
  cdf_b_opt phi (fit_b phi alpha t l u) l = Some 0 /\ cdf_b_opt phi (fit_b phi alpha t l u) u = Some 1.
Proof. exact ends_b. Qed.
Print Assumptions C40_both_ends.

(** The extended distributions: unbounded, with a lower bound, with two bounds. *)
Theorem C40_extended_unbounded_partial : forall d alpha t, base_distribution d -> 0 < alpha < 1 / 2 -> ordered t ->
  qv_low t + qv_high t <> 2 * qv_median t ->
  interpolates alpha t (ppf_extended d alpha back_u (fit_extended into_u t)) (cdf_extended d alpha into_u (fit_extended into_u t)) everywhere.
Proof. exact (fun d alpha t BD HA => extended_unbounded d alpha BD HA t). Qed.
Print Assumptions C40_extended_unbounded_partial.
Theorem C40_extended_semibounded_partial : forall d alpha t l, base_distribution d -> 0 < alpha < 1 / 2 -> ordered t -> l < qv_low t ->
  (qv_low t - l) * (qv_high t - l) <> (qv_median t - l) ^ 2 ->
  interpolates alpha t (ppf_extended d alpha (back_s l) (fit_extended (into_s l) t)) (cdf_extended d alpha (into_s l) (fit_extended (into_s l) t)) (above l).
Proof. exact (fun d alpha t l BD HA => extended_semibounded d alpha BD HA t l). Qed.
Print Assumptions C40_extended_semibounded_partial.
Theorem C40_extended_bounded_partial : forall d alpha t l u, base_distribution d -> 0 < alpha < 1 / 2 -> ordered t ->
  l < qv_low t -> qv_high t < u ->
  (qv_low t - l) / (u - qv_low t) * ((qv_high t - l) / (u - qv_high t)) <> ((qv_median t - l) / (u - qv_median t)) ^ 2 ->
  interpolates alpha t (ppf_extended d alpha (back_b l u) (fit_extended (into_b l u) t)) (cdf_extended d alpha (into_b l u) (fit_extended (into_b l u) t)) (between l u).
Proof. exact (fun d alpha t l u BD HA => extended_bounded d alpha BD HA t l u). Qed.
Print Assumptions C40_extended_bounded_partial.

(** The base distributions that are computed in the code meet the contract, for every
    shape parameter. *)
Theorem C40_logistic : base_distribution logistic.
Proof. exact logistic_base. Qed.
Print Assumptions C40_logistic.
Theorem C40_sinh_logistic : forall shape, base_distribution (sinh_logistic shape).
Proof. exact sinh_logistic_base. Qed.
Print Assumptions C40_sinh_logistic.

(** Triplets without skewness: no numbers at all, or missed outer quantiles. *)
Theorem C40_symmetric_semibounded_refuted : exists t l, ordered t /\ l < qv_low t /\
  forall phi alpha p, ppf_s_opt phi (fit_s phi alpha t l) p = None.
Proof. exact symmetric_s. Qed.
Print Assumptions C40_symmetric_semibounded_refuted.
Theorem C40_symmetric_bounded_refuted : exists t l u, ordered t /\ l < qv_low t /\ qv_high t < u /\
  forall phi alpha p, base_distribution phi -> ppf_b_opt phi (fit_b phi alpha t l u) p = None.
Proof. exact symmetric_b. Qed.
Print Assumptions C40_symmetric_bounded_refuted.
Theorem C40_symmetric_extended_refuted : exists t, ordered t /\ forall d alpha, base_distribution d -> 0 < alpha < 1 / 2 ->
  ~ interpolates alpha t (ppf_extended d alpha back_u (fit_extended into_u t)) (cdf_extended d alpha into_u (fit_extended into_u t)) everywhere.
Proof. exact symmetric_u. Qed.
Print Assumptions C40_symmetric_extended_refuted.

(** A lower quantile at the bound is moved away from it, and the cdf decreases there. *)
Theorem C40_at_bound_refuted : exists t l, l <= qv_low t /\ ordered t /\ forall d alpha, base_distribution d -> 0 < alpha < 1 / 2 ->
  exists v, ppf_extended d alpha (back_s l) (fit_extended (into_s l) t) alpha = Some v /\ v <> qv_low t.
Proof. exact at_bound. Qed.
Print Assumptions C40_at_bound_refuted.
Theorem C40_decreasing_cdf_refuted : exists t l, l < qv_low t /\ ordered t /\ forall d alpha, base_distribution d -> 0 < alpha < 1 / 2 ->
  exists v p q, l < v /\ cdf_extended d alpha (into_s l) (fit_extended (into_s l) t) l = Some p /\
    cdf_extended d alpha (into_s l) (fit_extended (into_s l) t) v = Some q /\ q < p.
Proof. exact decreasing_cdf. Qed.
Print Assumptions C40_decreasing_cdf_refuted.
(** Below the bound the cdf is not a number instead of zero. *)
Theorem C40_cdf_below_refuted : exists t l v, l < qv_low t /\ ordered t /\ v < l /\
  forall phi alpha, cdf_s_opt phi (fit_s phi alpha t l) v = None.
Proof. exact below_refuted. Qed.
Print Assumptions C40_cdf_below_refuted.

(** Arrays: a constructor refuses exactly the arrays with a triplet out of order, and
    each entry of a result belongs to its sample and its argument. *)
Theorem C40_samples : forall (D : Type) (fit1 : triplet -> D) ts,
  fit_samples fit1 ts = None <-> exists t, In t ts /\ ~ (qv_low t <= qv_median t <= qv_high t).
Proof. exact @samples_checked. Qed.
Print Assumptions C40_samples.
Theorem C40_outer : forall (D A : Type) (f : D -> R -> A) ds xs i j d x row, nth_error xs i = Some x -> nth_error ds j = Some d ->
  nth_error (apply_outer f ds xs) i = Some row -> nth_error row j = Some (f d x).
Proof. exact @outer_entry. Qed.
Print Assumptions C40_outer.
Theorem C40_inner : forall (D A : Type) (f : D -> R -> A) ds xs i d x, nth_error xs i = Some x -> nth_error ds i = Some d ->
  nth_error (apply_inner f ds xs) i = Some (f d x).
Proof. exact @inner_entry. Qed.
Print Assumptions C40_inner.
Example C40_case : let t := {| qv_low := 1; qv_median := 2; qv_high := 5 |} in
  ordered t /\ 0 < qv_low t /\ qv_high t < 6 /\ qv_low t + qv_high t <> 2 * qv_median t /\ (qv_low t - 0) * (qv_high t - 0) <> (qv_median t - 0) ^ 2 /\
  (qv_low t - 0) / (6 - qv_low t) * ((qv_high t - 0) / (6 - qv_high t)) <> ((qv_median t - 0) / (6 - qv_median t)) ^ 2 /\
  internal logistic 0 6 (qv_low t) + internal logistic 0 6 (qv_high t) <> 2 * internal logistic 0 6 (qv_median t).
Proof. exact ex_triplet. Qed.

(** ** C41 *)
(** Whatever the three estimators predict. *)
Theorem C41_semibounded : forall (X : Type) l u fitted (x : X), let t := chain_predict SemiBound l u fitted x in ordered t /\ l < qv_low t.
Proof. exact @chain_order_s. Qed.
Print Assumptions C41_semibounded.
Theorem C41_bounded : forall (X : Type) l u fitted (x : X), l < u ->
  let t := chain_predict Bound l u fitted x in ordered t /\ l < qv_low t /\ qv_high t < u.
Proof. exact @chain_order_b. Qed.
Print Assumptions C41_bounded.

(** ** C65 *)
(** An estimator that reproduces its training targets reproduces the quantile: the
    median, and the lower quantile. Missing: the upper quantile, see below, and
    negative lower bounds. *)
Theorem C65_median : forall (X : Type) (em el eh : estimator (X := X)) bnd l u xs y fitted x v,
  l < u -> length xs = length y -> NoDup xs -> memorises em ->
  chain_fit em el eh bnd l u xs y = Some fitted -> In (x, v) (combine xs y) ->
  l < v -> (bnd = Bound -> v < u) -> qv_median (chain_predict bnd l u fitted x) = v.
Proof. exact @median_round_trip. Qed.
Print Assumptions C65_median.
Theorem C65_lower_partial : forall (X : Type) (em el eh : estimator (X := X)) bnd l u xs y fitted x v,
  l < u -> 0 <= l -> length xs = length y -> NoDup xs -> memorises el ->
  chain_fit em el eh bnd l u xs y = Some fitted -> In (x, v) (combine xs y) ->
  l < v -> v < qv_median (chain_predict bnd l u fitted x) -> qv_low (chain_predict bnd l u fitted x) = v.
Proof. exact @low_round_trip. Qed.
Print Assumptions C65_lower_partial.

(** The target 3 above its median 1 leads to the upper quantile 5: training divides by
    the distance to the lower quantile, prediction does not multiply with it. *)
Theorem C65_upper_refuted : exists (em el eh : estimator (X := nat)) xs y fitted, memorises eh /\ NoDup xs /\
  chain_fit em el eh SemiBound 0 1 xs y = Some fitted /\ In (1%nat, 3) (combine xs y) /\
  qv_median (chain_predict SemiBound 0 1 fitted 1%nat) = 1 /\ qv_high (chain_predict SemiBound 0 1 fitted 1%nat) = 5.
Proof. exact upper_refuted. Qed.
Print Assumptions C65_upper_refuted.

(** With two bounds the training fails unless all targets are above their medians. *)
Theorem C65_bounded_fit_refuted : exists (em el eh : estimator (X := nat)) xs y, length xs = length y /\
  (forall v, In v y -> 0 < v < 1) /\ chain_fit em el eh Bound 0 1 xs y = None.
Proof. exact bounded_fit_fails. Qed.
Print Assumptions C65_bounded_fit_refuted.
Theorem C65_bounded_only_above : forall (X : Type) (em el eh : estimator (X := X)) l u xs y fitted x v,
  l < u -> length xs = length y ->
  chain_fit em el eh Bound l u xs y = Some fitted -> In (x, v) (combine xs y) -> qv_median (chain_predict Bound l u fitted x) < v.
Proof. exact @bounded_fit. Qed.
Print Assumptions C65_bounded_only_above.
Example C65_estimator_exists : memorises lookup.
Proof. exact lookup_memorises. Qed.

(** ** C66 *)
Theorem C66_density : forall shape x, derivable_pt_lim (sinh_cdf shape) x (sinh_pdf shape x).
Proof. exact sinh_density. Qed.
Print Assumptions C66_density.
