(** Specification of the dictionaries of explicit smoothers. *)
From Coq Require Import ZArith List String.
From Verif.Model Require Import SmootherChoice ExplicitSmoothers.
Import ListNotations.

(** The key for the feature group with these columns. *)
Definition names_key (names : list string) : key := TupleOf (map Text names).

(** A well-formed dictionary maps tuples of strings to smoothers. *)
Definition well_formed (d : dictionary) : Prop :=
  Forall (fun kv => (exists names, fst kv = names_key names) /\ (exists s, snd kv = Smoother s)) d.

(** The dictionary has an entry for the columns. *)
Definition mentions (d : dictionary) (names : list string) : Prop := In (names_key names) (map fst d).

(** A feature group of columns with these names, of a data frame. *)
Definition named (names : list string) : list column := map Named names.
(** A feature group of numbered columns, of an array. *)
Definition numbered (numbers : list Z) : list column := map Numbered numbers.
