(** A trained estimator without one of its feature groups. *)
From Coq Require Import List Reals.
From Verif.Model Require Import WholeFit.
From Verif.Spec Require Import InertSpec.

(** The same estimator with the contributions of group [n] left out. *)
Definition model_without (n : nat) (t : model) : model :=
  {| o_scale := o_scale t; o_offset := o_offset t; o_groups := without n (o_groups t);
     o_iterations := o_iterations t; o_loss := o_loss t |}.

(** How a training without group [n] should end, given how the training with it ends. *)
Definition result_without (n : nat) (r : result) : result :=
  match r with
  | Trained t => Trained (model_without n t)
  | NoBaseline => NoBaseline
  | MoreIterations => MoreIterations
  | Failed e => Failed e
  end.
