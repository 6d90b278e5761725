(** The learning rates of a training. *)
From Coq Require Import List Bool Reals.
From Verif.Model Require Import Train Link.
Local Open Scope R_scope.

(** The constructor's choice of the learning rate function (base.py:325-330): half-linear by
    default, the given one otherwise, but always constant with hierarchical feature
    groups. Functions that depend on the feature are not modelled. *)
Definition chosen_learn_rate (given : option (nat -> R -> R)) (hierarchical : bool) : nat -> R -> R :=
  let learn_rate := match given with None => half_linear_learn_rate | Some r => r end in
  if hierarchical then constant_learn_rate_one else learn_rate.

(** [learning_rate] (base.py:348-350) in iteration [it] for a feature group: it depends on
    [maximal_iterations]. *)
Definition estimator_rate (given : option (nat -> R -> R)) (cfg : settings) (it feature_group : nat) : R :=
  learning_rate (chosen_learn_rate given (c_hier cfg)) (c_maxiter cfg) it.
