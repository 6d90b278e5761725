(** Vocabulary for the criteria that stop a training. *)
From Coq Require Import List Bool Reals.
From Verif.Model Require Import Num Train Predict Link WholeFit.
Local Open Scope R_scope.

(** The same settings with other [maximal_iterations], [minimal_factor_change] and
    [minimal_loss_change]. *)
Record criteria := { k_iterations : nat; k_factor : R; k_loss : R }.
Definition with_criteria (cfg : settings) (k : criteria) : settings :=
  {| c_aggregate := c_aggregate cfg; c_log := c_log cfg; c_hier := c_hier cfg; c_thier := c_thier cfg;
     c_maxiter := k_iterations k; c_minfactor := k_factor k; c_minloss := k_loss k |}.
(** Criteria that are harder to meet. *)
Definition stricter (k k' : criteria) : Prop :=
  (k_iterations k <= k_iterations k')%nat /\ k_factor k' <= k_factor k /\ k_loss k' <= k_loss k.
(** The same criteria with another limit for the iterations. *)
Definition with_limit (k : criteria) (n : nat) : criteria := {| k_iterations := n; k_factor := k_factor k; k_loss := k_loss k |}.

(** What the criteria of a training mean for its outcome: [fit k fuel] is the training with
    the criteria [k]. They decide nothing but the number of iterations; stricter ones never
    lead to fewer; and a limit that was not reached, or the number of iterations itself as
    limit, leads to the same model. *)
Definition criteria_only_stop (fit : criteria -> nat -> result) : Prop :=
  (forall k k' fuel fuel' t t', fit k fuel = Trained t -> fit k' fuel' = Trained t' -> o_iterations t = o_iterations t' -> t = t') /\
  (forall k k' fuel fuel' t t', stricter k k' -> fit k fuel = Trained t -> fit k' fuel' = Trained t' ->
    (o_iterations t <= o_iterations t')%nat) /\
  (forall k fuel t n, fit k fuel = Trained t ->
    (o_iterations t < k_iterations k /\ o_iterations t <= n \/ o_iterations t = n)%nat -> fit (with_limit k n) fuel = Trained t).
