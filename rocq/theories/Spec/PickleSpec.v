(** Specification of saving and loading. *)
From Coq Require Import List String.
From Verif.Model Require Import Pickle.

(** The attributes of a smoother in memory: each name once, no sparse matrices. *)
Definition object_attrs (d : attrs) : Prop :=
  NoDup (map fst d) /\ forall k m, get_attr d k <> Some (Sparse m).
