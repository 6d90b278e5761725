(** Facts about [fnum] comparisons and Python indexing. *)
From Coq Require Import ZArith QArith List Bool Lia ZifyBool.
From Verif.Model Require Import Num.
Import ListNotations.

Lemma Qle_bool_false (x y : Q) : Qle_bool x y = false <-> (y < x)%Q.
Proof.
  split; intro H.
  - apply Qnot_le_lt. intro H'. apply Qle_bool_iff in H'. congruence.
  - destruct (Qle_bool x y) eqn:E; [|reflexivity].
    apply Qle_bool_iff in E. exfalso. apply (Qlt_not_le _ _ H E).
Qed.

Lemma fle_refl a : a <> NaN -> fle a a = true.
Proof.
  destruct a; intro H; try reflexivity; try congruence.
  cbn [fle]. apply Qle_bool_iff, Qle_refl.
Qed.

Lemma fle_trans a b c : fle a b = true -> fle b c = true -> fle a c = true.
Proof.
  destruct a, b, c; cbn [fle]; try congruence; rewrite ?Qle_bool_iff; intros; auto;
    try discriminate.
  eapply Qle_trans; eauto.
Qed.

Lemma fle_nan_r a : fle a NaN = false.
Proof. destruct a; reflexivity. Qed.

Lemma fle_total a b : a <> NaN -> b <> NaN -> fle a b = false -> fle b a = true.
Proof.
  destruct a, b; cbn [fle]; try congruence; intros _ _.
  rewrite Qle_bool_false, Qle_bool_iff. apply Qlt_le_weak.
Qed.

Lemma pyget_in_range {A} (l : list A) i :
  (0 <= i < Z.of_nat (length l))%Z -> pyget l i = nth_error l (Z.to_nat i).
Proof.
  intro H. unfold pyget.
  destruct (0 <=? i)%Z eqn:E1; [|lia].
  destruct (i <? Z.of_nat (length l))%Z eqn:E2; [|lia]. reflexivity.
Qed.

Lemma pyget_some {A} (l : list A) i :
  (0 <= i < Z.of_nat (length l))%Z -> exists v, pyget l i = Some v /\ nth_error l (Z.to_nat i) = Some v.
Proof.
  intro H. rewrite (pyget_in_range l i H).
  destruct (nth_error l (Z.to_nat i)) eqn:E; [eauto|].
  apply nth_error_None in E. lia.
Qed.

Lemma pyget_neg1 {A} (l : list A) :
  l <> [] -> pyget l (-1)%Z = nth_error l (length l - 1).
Proof.
  intro H. unfold pyget.
  destruct l as [|x r]; [congruence|].
  cbn [length].
  destruct ((0 <=? -1) && (-1 <? Z.of_nat (S (length r))))%Z eqn:E; [lia|].
  destruct ((- Z.of_nat (S (length r)) <=? -1) && (-1 <? 0))%Z eqn:E2; [|lia].
  f_equal. lia.
Qed.

Lemma nth_error_Z_lt {A} (l : list A) n v : nth_error l n = Some v -> (n < length l)%nat.
Proof. intro H. apply nth_error_Some. congruence. Qed.
