(** Vocabulary for weights divided by a number. *)
From Coq Require Import ZArith List Bool Reals.
From Verif.Model Require Import Num Train WholeFit.
Import ListNotations.
Local Open Scope R_scope.

(** The row with its weight divided by [a]. *)
Definition lighter (a : R) (s : sample) : sample :=
  {| x_bins := x_bins s; x_prior := x_prior s; x_y := x_y s; x_w := x_w s / a |}.

(** The smoother does not notice that the weights of all bins are divided by [a]. *)
Definition unmoved_by (a : R) (g : group) : Prop := forall centres weights uncertainties values b,
  g_smoother g centres (map (fun w => w / a) weights) uncertainties values b = g_smoother g centres weights uncertainties values b.
