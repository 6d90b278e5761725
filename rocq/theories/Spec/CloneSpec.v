(** Specification of copies and of settings. *)
From Coq Require Import ZArith List Bool.
From Verif.Model Require Import Pipelines Cloning.
Import ListNotations.

(** An object that belongs to the value. *)
Inductive part_of (i : nat) : pyval -> Prop :=
| in_seq_self l : part_of i (PSeq i l)
| in_seq j l v : In v l -> part_of i v -> part_of i (PSeq j l)
| in_opaque_self l : part_of i (POpaque i l)
| in_opaque j l v : In v l -> part_of i v -> part_of i (POpaque j l)
| in_est_self c p s : part_of i (PEst i c p s)
| in_params j c p s v : In v p -> part_of i v -> part_of i (PEst j c p s)
| in_learned j c p s v : In v s -> part_of i v -> part_of i (PEst j c p s).

(** Equal but for the identities. *)
Inductive equal_value : pyval -> pyval -> Prop :=
| eq_atom a : equal_value (PAtom a) (PAtom a)
| eq_seq i j l l' : Forall2 equal_value l l' -> equal_value (PSeq i l) (PSeq j l')
| eq_opaque i j l l' : Forall2 equal_value l l' -> equal_value (POpaque i l) (POpaque j l')
| eq_est i j c p p' s s' : Forall2 equal_value p p' -> Forall2 equal_value s s' ->
    equal_value (PEst i c p s) (PEst j c p' s').

Section Shared.
(** The parameters that a class declares as not to be copied. *)
Variable shared : nat -> nat -> bool.

(** [same_settings v w]: [w] has the settings of [v] and has learned nothing: its
    parameters have the same settings in turn, or are the same objects if the class
    declares so; objects other than estimators are equal. *)
Inductive same_settings : pyval -> pyval -> Prop :=
| same_atom a : same_settings (PAtom a) (PAtom a)
| same_seq i j l l' : Forall2 same_settings l l' -> same_settings (PSeq i l) (PSeq j l')
| same_opaque i j l l' : Forall2 equal_value l l' -> same_settings (POpaque i l) (POpaque j l')
| same_est i j c p p' s : length p = length p' ->
    (forall k v v', nth_error p k = Some v -> nth_error p' k = Some v' -> shared c k = true -> v' = v) ->
    (forall k v v', nth_error p k = Some v -> nth_error p' k = Some v' -> shared c k = false -> same_settings v v') ->
    same_settings (PEst i c p s) (PEst j c p' []).

(** An object in a parameter that is not to be copied. *)
Inductive kept_part (i : nat) : pyval -> Prop :=
| kept_seq j l v : In v l -> kept_part i v -> kept_part i (PSeq j l)
| kept_here j c p s k v : nth_error p k = Some v -> shared c k = true -> part_of i v -> kept_part i (PEst j c p s)
| kept_param j c p s k v : nth_error p k = Some v -> shared c k = false -> kept_part i v -> kept_part i (PEst j c p s).
End Shared.

(** All objects existing so far have identities below [next]. *)
Definition allocated (next : nat) (v : pyval) : Prop := forall i, part_of i v -> (i < next)%nat.
(** No common objects. *)
Definition disjoint (v w : pyval) : Prop := forall i, part_of i v -> ~ part_of i w.
(** The keyword arguments with one more setting. *)
Definition with_setting (kw : kwargs) (s : setting) (v : value) : kwargs :=
  fun s' => if setting_beq s' s then Some v else kw s'.
(** Training and prediction cannot tell the two estimators apart. *)
Definition interchangeable (o o' : object) : Prop :=
  (forall s, reads o s = reads o' s) /\ hierarchical_names o = hierarchical_names o'.
(** Settings that the constructor converts or uses only once. *)
Definition converted (s : setting) : Prop :=
  s = hierarchical_feature_groups \/ s = standard_feature_groups \/ s = external_feature_groups.
Definition has_default_object (s : setting) : Prop := s = smoother_choice \/ s = observers \/ s = learn_rate.
