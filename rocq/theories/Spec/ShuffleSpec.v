(** Vocabulary for training frames whose rows are shuffled. *)
From Coq Require Import List Bool Permutation.
From Verif.Model Require Import Frames LexBins WholeFit Refit.
Import ListNotations.

(** Each of the positions 0, ..., n-1 once, in some order. *)
Definition order_of_rows (n : nat) (idx : list nat) : Prop := Permutation idx (seq 0 n).
(** A check of the training data that does not look at the order of the rows. *)
Definition treats_rows_alike (accepted : list target -> bool) : Prop :=
  forall T T', Permutation T T' -> accepted T = accepted T'.
(** Every feature group has as many dimensions as columns. *)
Definition one_dimension_each (style : list label -> group) : Prop :=
  forall names, g_dim (style names) = List.length names.
