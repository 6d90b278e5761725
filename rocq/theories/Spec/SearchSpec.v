(** Specification of searches in a sorted array, independent of any algorithm. *)
From Coq Require Import ZArith QArith List Bool.
From Verif.Model Require Import Num.
Import ListNotations.
Local Open Scope Z_scope.

(** The array is sorted: no NaN, and earlier elements are <= later ones. *)
Definition sorted_array (z : list fnum) : Prop :=
  Forall (fun v => v <> NaN) z /\
  forall i j a b, (i < j)%nat -> nth_error z i = Some a -> nth_error z j = Some b ->
             fle a b = true.

(** Element at (zero based, non-negative) position [j]. *)
Definition elem (z : list fnum) (j : Z) (v : fnum) : Prop :=
  0 <= j /\ nth_error z (Z.to_nat j) = Some v.

(** [i] is the position of the last element <= [x]; -1 if there is none. *)
Definition last_le (z : list fnum) (x : fnum) (i : Z) : Prop :=
  -1 <= i < Z.of_nat (length z) /\
  (forall j v, elem z j v -> j <= i -> fle v x = true) /\
  (forall j v, elem z j v -> i < j -> fle v x = false).

(** [i] is the position of the first element >= [x] among the positions
    [l, r); [r] if there is none. *)
Definition first_ge (z : list fnum) (x : fnum) (l r i : Z) : Prop :=
  l <= i <= r /\
  (forall j v, elem z j v -> l <= j -> j < i -> fge v x = false) /\
  (forall j v, elem z j v -> i <= j -> j < r -> fge v x = true).
