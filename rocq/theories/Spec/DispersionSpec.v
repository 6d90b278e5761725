(** Negative binomial distributions and their dispersion. *)
From Coq Require Import List Reals.
Import ListNotations.
Local Open Scope R_scope.

(** Mean and variance of the negative binomial distribution with [n] failures and
    success probability [p] (scipy's convention). *)
Definition nb_mean (n p : R) : R := n * (1 - p) / p.
Definition nb_variance (n p : R) : R := n * (1 - p) / (p * p).

(** [x] is one of the values where [f] is smallest among [l]. *)
Definition best_of (f : R -> R) (l : list R) (x : R) : Prop :=
  In x l /\ forall y, In y l -> f x <= f y.

(** Penalised negative log-likelihood of a target [y] under the negative binomial
    distribution with mean [mu] and dispersion [c] (variance [mu + c mu^2]), with
    [lg] the logarithm of the gamma function. *)
Definition penalised_nll (lg : R -> R) (gamma y n p c : R) : R :=
  - (lg (n + y) - lg (y + 1) - lg n + n * ln p + y * ln (1 - p)) + gamma * c.

(** [count] numbers that divide [a..b] evenly, as exponents of 10. *)
Definition power_grid (a b : R) (count : nat) (x : R) : Prop :=
  exists i, (i < count)%nat /\ x = Rpower 10 (a + INR i * (b - a) / (INR count - 1)).
