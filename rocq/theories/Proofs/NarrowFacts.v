(** Integer narrowing (C11). *)
From Coq Require Import ZArith NArith QArith List Bool Lia ZifyBool.
From Verif.Model Require Import Num BinarySearch Flags Ecdf BinTransform.
Import ListNotations.
Local Open Scope Z_scope.

Lemma fold_max_ge l : forall a x, In x (a :: l) -> x <= fold_left Z.max l a.
Proof.
  induction l as [|b r IH]; intros a x [<-|H]; cbn; try lia; try contradiction.
  - specialize (IH (Z.max a b) (Z.max a b) (or_introl eq_refl)). lia.
  - destruct H as [<-|H].
    + specialize (IH (Z.max a b) (Z.max a b) (or_introl eq_refl)). lia.
    + apply IH. right; auto.
Qed.
Lemma fold_min_le l : forall a x, In x (a :: l) -> fold_left Z.min l a <= x.
Proof.
  induction l as [|b r IH]; intros a x [<-|H]; cbn; try lia; try contradiction.
  - specialize (IH (Z.min a b) (Z.min a b) (or_introl eq_refl)). lia.
  - destruct H as [<-|H].
    + specialize (IH (Z.min a b) (Z.min a b) (or_introl eq_refl)). lia.
    + apply IH. right; auto.
Qed.

Lemma wrap_id bits x : 0 < bits -> - 2 ^ (bits - 1) <= x < 2 ^ (bits - 1) -> wrap bits x = x.
Proof.
  intros Hb Hx. unfold wrap.
  assert (E : 2 ^ bits = 2 * 2 ^ (bits - 1)) by (rewrite <- Z.pow_succ_r by lia; f_equal; lia).
  rewrite Z.mod_small; lia.
Qed.

Lemma narrowing_lossless l : (forall x, In x l -> - 2 ^ 63 <= x < 2 ^ 63) ->
  as_int_array_of_minimum_dtype l = l.
Proof.
  intro H. unfold as_int_array_of_minimum_dtype.
  transitivity (map (fun x => x) l); [|apply map_id]. apply map_ext_in. intros x Hx.
  assert (B : forall m, (match l with [] => 0 | _ => Z.max (list_max l) (Z.abs (list_min l)) end) <= m -> - m <= x <= m).
  { intros m Hm. destruct l as [|a r]; [contradiction|].
    assert (Hm1 : x <= list_max (a :: r)) by (apply fold_max_ge; right; auto).
    assert (Hm2 : list_min (a :: r) <= x) by (apply fold_min_le; right; auto).
    lia. }
  unfold minimum_dtype_bits.
  destruct (_ <=? 2 ^ 7 - 1) eqn:E1; [apply Z.leb_le, B in E1; apply wrap_id; lia|].
  destruct (_ <=? 2 ^ 15 - 1) eqn:E2; [apply Z.leb_le, B in E2; apply wrap_id; lia|].
  destruct (_ <=? 2 ^ 31 - 1) eqn:E3; [apply Z.leb_le, B in E3; apply wrap_id; lia|].
  apply wrap_id; [lia|]. apply (H x Hx).
Qed.
