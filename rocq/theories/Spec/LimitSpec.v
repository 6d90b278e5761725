(** Vocabulary for the limit of the iterations. *)
From Coq Require Import Reals.
From Verif.Model Require Import Train.
From Verif.Spec Require Import StopSpec.

(** The same settings with another [maximal_iterations]. *)
Definition limited_to (n : nat) (cfg : settings) : settings :=
  with_criteria cfg {| k_iterations := n; k_factor := c_minfactor cfg; k_loss := c_minloss cfg |}.
