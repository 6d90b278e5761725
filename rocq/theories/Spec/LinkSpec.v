(** What links, learning rates and baselines mean. *)
From Coq Require Import List Bool Reals.
From Verif.Model Require Import Num LexBins Train Predict Link.
Import ListNotations.
Local Open Scope R_scope.

(** Interior of the range accepted by is_in_range. *)
Definition interior (l : link) (m : R) : Prop :=
  exists eps, 0 < eps /\ forall x, Rabs (x - m) < eps -> is_in_range l [x] = true.

(** The learning rates offered by the package. *)
Definition offered_rate (r : nat -> R -> R) : Prop :=
  In r [constant_learn_rate_one; linear_learn_rate; logistic_learn_rate; half_linear_learn_rate].

(** [m] is the weighted mean of the values. *)
Definition is_weighted_mean (y w : list R) (m : R) : Prop :=
  m * sumR w = sumR (map2 Rmult y w).

(** Usable prior predictions and their weights: the rows whose entry is finite. *)
Definition usable (prior : list (option R)) (w : list R) : list (R * R) :=
  flat_map (fun pw => match fst pw with Some p => [(p, snd pw)] | None => [] end) (combine prior w).
