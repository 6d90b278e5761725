(** C01: sorted-array searches return the documented index. *)
From Coq Require Import ZArith QArith List Bool.
From Verif.Model Require Import Num BinarySearch.
From Verif.Spec Require Import SearchSpec.
From Verif.Proofs Require Import BinarySearchFacts.
Import ListNotations.
Local Open Scope Z_scope.

Theorem C01_le_last_element_le : forall z x,
  sorted_array z -> exists i, le_search z x false = Found i /\ last_le z x i.
Proof. exact le_search_exclusive. Qed.
Print Assumptions C01_le_last_element_le.

Theorem C01_le_inclusive_never_negative : forall z x,
  sorted_array z -> exists i, le_search z x true = Found (Z.max 0 i) /\ last_le z x i.
Proof. exact le_search_inclusive. Qed.
Print Assumptions C01_le_inclusive_never_negative.

Theorem C01_ge_first_element_ge : forall z x,
  sorted_array z ->
  exists i, ge_search z x false = Found i /\ first_ge z x 0 (Z.of_nat (length z)) i.
Proof. exact ge_search_exclusive. Qed.
Print Assumptions C01_ge_first_element_ge.

Theorem C01_ge_inclusive_at_most_last : forall z x,
  sorted_array z ->
  exists i, ge_search z x true = Found (Z.min i (Z.of_nat (length z) - 1)) /\
       first_ge z x 0 (Z.of_nat (length z)) i.
Proof. exact ge_search_inclusive. Qed.
Print Assumptions C01_ge_inclusive_at_most_last.

Theorem C01_ge_lim_first_in_range : forall z x l r,
  sorted_array z -> 0 <= l <= r -> r <= Z.of_nat (length z) ->
  exists i, ge_lim z x false l r = Found i /\ first_ge z x l r i.
Proof. exact ge_lim_exclusive. Qed.
Print Assumptions C01_ge_lim_first_in_range.

Theorem C01_ge_lim_inclusive : forall z x l r,
  sorted_array z -> 0 <= l <= r -> r <= Z.of_nat (length z) ->
  exists i, ge_lim z x true l r = Found (Z.min i (r - 1)) /\ first_ge z x l r i.
Proof. exact ge_lim_inclusive. Qed.
Print Assumptions C01_ge_lim_inclusive.

(** The specification determines the index. *)
Theorem C01_last_le_determined : forall z x i k, last_le z x i -> last_le z x k -> i = k.
Proof. exact last_le_unique. Qed.
Print Assumptions C01_last_le_determined.

Theorem C01_first_ge_determined : forall z x l r i k,
  0 <= l -> r <= Z.of_nat (length z) ->
  first_ge z x l r i -> first_ge z x l r k -> i = k.
Proof. exact first_ge_unique. Qed.
Print Assumptions C01_first_ge_determined.

(** A sorted array with a repetition and an infinite end meets the hypotheses. *)
Definition c01_array : list fnum := [NInf; Fin 1; Fin 2; Fin 2; Fin 5; PInf].
Example c01_sorted : sorted_array c01_array.
Proof. exact (sorted_check_sound c01_array eq_refl). Qed.
Example c01_le : le_search c01_array (Fin 2) false = Found 3.
Proof. reflexivity. Qed.
Example c01_ge : ge_search c01_array (Fin 2) false = Found 2.
Proof. reflexivity. Qed.
Example c01_le_nan : le_search c01_array NaN false = Found (-1).
Proof. reflexivity. Qed.
Example c01_ge_lim : ge_lim c01_array (Fin 7) true 1 5 = Found 4.
Proof. reflexivity. Qed.
