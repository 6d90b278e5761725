(** C135: the limit of the iterations. *)
From Coq Require Import ZArith QArith List Bool Reals.
From Verif.Model Require Import Num Train Link WholeFit LearnRate.
From Verif.Spec Require Import StopSpec LimitSpec.
From Verif.Proofs Require Import LimitFacts.
Import ListNotations.
Local Open Scope R_scope.

(** With hierarchical feature groups, or a learning rate that does not depend on it,
    [maximal_iterations] is only a limit. *)
Theorem C135_limit_partial : forall gm bppf erfinv bad k prior gs cfg D given,
  (c_hier cfg = true \/ exists r, given = Some r /\ forall it mx mx', r it mx = r it mx') ->
  criteria_only_stop (fun c fuel => whole_fit gm bppf erfinv bad k prior gs (with_criteria cfg c) (estimator_rate given (with_criteria cfg c)) fuel D).
Proof. exact limit_only_stops. Qed.
Print Assumptions C135_limit_partial.

(** With the default learning rate it is not: raising a limit that is not reached changes
    the model. *)
Theorem C135_default_refuted : forall gm bppf erfinv bad, exists k gs cfg D n t t' p p',
  c_hier cfg = false /\ c_aggregate cfg = true /\ (c_maxiter cfg < n)%nat /\
  whole_fit gm bppf erfinv bad k false gs cfg (estimator_rate None cfg) (c_maxiter cfg) D = Trained t /\
  (o_iterations t < c_maxiter cfg)%nat /\
  whole_fit gm bppf erfinv bad k false gs (limited_to n cfg) (estimator_rate None (limited_to n cfg)) n D = Trained t' /\
  o_iterations t' = o_iterations t /\
  nth_error (whole_predict k false t D) 0 = Some p /\ nth_error (whole_predict k false t' D) 0 = Some p' /\ p = 2 * p' /\ p <> p'.
Proof. exact default_limit_refuted. Qed.
Print Assumptions C135_default_refuted.

(** With hierarchical feature groups a given learning rate is not used. *)
Theorem C135_given_unused : forall r r' cfg it i, c_hier cfg = true -> estimator_rate r cfg it i = 1 /\ estimator_rate r cfg = estimator_rate r' cfg.
Proof. exact given_unused. Qed.
Print Assumptions C135_given_unused.

(** The learning rates of the passes of a training with the limit 4. *)
Example C135_case : forall cfg, c_hier cfg = false -> c_maxiter cfg = 4%nat ->
  estimator_rate None cfg 0 0 = 1 / 2 /\ estimator_rate None cfg 1 0 = 1 /\ estimator_rate (Some constant_learn_rate_one) cfg 0 0 = 1.
Proof. exact default_case. Qed.
