(** C76: the checks of [fit] on its data. *)
From Coq Require Import ZArith QArith List Bool.
From Verif.Model Require Import Num Targets.
From Verif.Spec Require Import TargetSpec.
From Verif.Proofs Require Import TargetFacts.
Import ListNotations.

(** Targets in the documented range are accepted. *)
Theorem C76_accepts : forall e y, (forall v, In v y -> in_range (target_range e) v) -> check_y e y = true.
Proof. exact in_range_accepted. Qed.
Print Assumptions C76_accepts.

(** NaN, negative infinity and finite targets out of range are rejected by all
    estimators but the background subtraction. *)
Theorem C76_rejects_nan_partial : forall e y, e <> GBS -> In NaN y \/ In NInf y -> check_y e y = false.
Proof. exact nan_rejected. Qed.
Print Assumptions C76_rejects_nan_partial.

Theorem C76_rejects_out_of_range_partial : forall e y q, e <> GBS -> In (Fin q) y ->
  ~ in_range (target_range e) (Fin q) -> check_y e y = false.
Proof. exact out_of_range_rejected. Qed.
Print Assumptions C76_rejects_out_of_range_partial.

(** Exactly the accepted targets. *)
Theorem C76_accepted_targets : forall e y, check_y e y = true <-> forall v, In v y ->
  match e with GBS => True | _ => in_range (target_range e) v \/ (v = PInf /\ target_range e = NonNegative) end.
Proof. exact accepted. Qed.
Print Assumptions C76_accepted_targets.

(** An infinite target passes every estimator for targets from 0 to infinity
    (exclusive), and anything passes the background subtraction. *)
Theorem C76_infinite_refuted : forall e, target_range e = NonNegative -> fit_checks e 1 [PInf] = true.
Proof. exact infinite_accepted. Qed.
Print Assumptions C76_infinite_refuted.

Theorem C76_gbs_refuted : forall n y, check_len_data n (length y) = true -> fit_checks GBS n y = true.
Proof. exact gbs_accepts_anything. Qed.
Print Assumptions C76_gbs_refuted.

(** Empty data is rejected, but an empty target for a non-empty frame passes. *)
Theorem C76_empty_partial : forall e n y, fit_checks e n y = true -> ~ (n = 0%nat /\ y = []).
Proof. exact empty_rejected. Qed.
Print Assumptions C76_empty_partial.

Theorem C76_empty_target_refuted : forall e n, (0 < n)%nat -> fit_checks e n [] = true.
Proof. exact empty_target_passes. Qed.
Print Assumptions C76_empty_target_refuted.

Example c76_targets : fit_checks Poisson 3 [Fin 0; Fin (1#2); Fin 7] = true /\ fit_checks Classifier 2 [Fin 0; Fin 1] = true /\
  fit_checks Classifier 2 [Fin 0; Fin (1#2)] = false /\ fit_checks Location 1 [Fin (-3)] = true /\
  fit_checks Poisson 1 [Fin (-3)] = false.
Proof. exact ex_targets. Qed.
