(** Smoothers that do not look at the uncertainties of the bin estimates. *)
From Coq Require Import ZArith QArith List Reals.
From Verif.Model Require Import WholeFit.
Definition ignores_uncertainties (g : group) : Prop :=
  forall centres weights u u' values b, length u = length u' ->
    g_smoother g centres weights u values b = g_smoother g centres weights u' values b.
