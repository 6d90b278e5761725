(** Correctness of the searches. *)
From Coq Require Import ZArith QArith List Bool Lia ZifyBool.
From Verif.Model Require Import Num BinarySearch.
From Verif.Spec Require Import SearchSpec.
From Verif.Proofs Require Import NumFacts.
Import ListNotations.
Local Open Scope Z_scope.
Ltac Zify.zify_post_hook ::= Z.div_mod_to_equations.

Lemma sorted_le_down z x i j a b :
  sorted_array z -> i <= j -> elem z i a -> elem z j b -> fle b x = true -> fle a x = true.
Proof.
  intros [Hn Hs] Hij [Hi Ha] [Hj Hb] Hx.
  destruct (Z.eq_dec i j) as [->|Hne]; [congruence|].
  apply (fle_trans a b x); [|exact Hx].
  apply (Hs (Z.to_nat i) (Z.to_nat j)); auto. lia.
Qed.

Lemma sorted_ge_up z x i j a b :
  sorted_array z -> i <= j -> elem z i a -> elem z j b -> fge a x = true -> fge b x = true.
Proof.
  intros [Hn Hs] Hij [Hi Ha] [Hj Hb] Hx. unfold fge in *.
  destruct (Z.eq_dec i j) as [->|Hne]; [congruence|].
  apply (fle_trans x a b); [exact Hx|].
  apply (Hs (Z.to_nat i) (Z.to_nat j)); auto. lia.
Qed.

(** Loop invariant of [le]: everything up to [il] (from the start bound on) is
    <= x, everything from [ir] on is not. *)
Lemma le_loop_spec z x (Hs : sorted_array z) lo :
  forall fuel il ir,
    -1 <= il -> lo <= il -> ir <= Z.of_nat (length z) -> il <= Z.max il (ir - 1) ->
    (ir - il <= Z.of_nat fuel \/ ir - 1 <= il) ->
    (forall j v, elem z j v -> lo < j -> j <= il -> fle v x = true) ->
    (forall j v, elem z j v -> ir <= j -> fle v x = false) ->
    exists i, le_loop fuel z x il ir = Found i /\ il <= i <= Z.max il (ir - 1) /\
      (forall j v, elem z j v -> lo < j -> j <= i -> fle v x = true) /\
      (forall j v, elem z j v -> i < j -> lo < j -> fle v x = false \/ j <= Z.min il (ir-1)).
Proof.
  induction fuel as [|fuel IH]; intros il ir H1 H0 H2 Hd Hf Hl Hr.
  - cbn [le_loop]. destruct (il <? ir - 1) eqn:E; [lia|].
    exists il. repeat split; auto; try lia.
    intros j v Hj Hij Hlo. left. apply (Hr j v Hj). lia.
  - cbn [le_loop]. destruct (il <? ir - 1) eqn:E.
    + set (i := (il + ir) / 2).
      assert (Hi : il < i < ir) by (unfold i; lia).
      destruct (pyget_some z i) as [v [Hv Hn]]; [lia|].
      rewrite Hv.
      assert (Hel : elem z i v) by (split; [lia|exact Hn]).
      destruct (fle v x) eqn:Ev.
      * destruct (IH i ir) as [k [Hk [Hb [Hk1 Hk2]]]]; try lia; auto.
        { intros j w Hj Hlo Hji. apply (sorted_le_down z x j i w v); auto. }
        exists k. repeat split; auto; try lia.
        intros j w Hj Hkj Hlo. destruct (Hk2 j w Hj Hkj Hlo) as [H|H]; [auto|lia].
      * destruct (IH il i) as [k [Hk [Hb [Hk1 Hk2]]]]; try lia; auto.
        { intros j w Hj Hji. destruct (fle w x) eqn:Ew; [|reflexivity].
          rewrite (sorted_le_down z x i j v w) in Ev; auto. }
        exists k. repeat split; auto; try lia.
        intros j w Hj Hkj Hlo. destruct (Hk2 j w Hj Hkj Hlo) as [H|H]; [auto|lia].
    + exists il. repeat split; auto; try lia.
      intros j v Hj Hij Hlo. left. apply (Hr j v Hj). lia.
Qed.

Lemma elem_lt z j v : elem z j v -> 0 <= j < Z.of_nat (length z).
Proof.
  intros [H0 H]. apply nth_error_Z_lt in H. lia.
Qed.

Lemma le_search_exclusive z x :
  sorted_array z -> exists i, le_search z x false = Found i /\ last_le z x i.
Proof.
  intros Hs. unfold le_search.
  destruct (le_loop_spec z x Hs (-1) (S (length z)) (-1) (Z.of_nat (length z)))
    as [i [Hi [Hb [H1 H2]]]]; try lia.
  { intros j v Hj; pose proof (elem_lt _ _ _ Hj); lia. }
  exists i. split; [exact Hi|]. split; [lia|]. split.
  - intros j v Hj Hji. apply (H1 j v Hj); auto. pose proof (elem_lt _ _ _ Hj); lia.
  - intros j v Hj Hji. pose proof (elem_lt _ _ _ Hj). destruct (H2 j v Hj Hji); auto; lia.
Qed.

Lemma le_search_inclusive z x :
  sorted_array z -> exists i, le_search z x true = Found (Z.max 0 i) /\ last_le z x i.
Proof.
  intros Hs. unfold le_search.
  destruct z as [|z0 zr].
  { exists (-1). split; [reflexivity|]. split; [cbn; lia|].
    split; intros j v Hj; pose proof (elem_lt _ _ _ Hj); cbn in *; lia. }
  set (z := z0 :: zr) in *.
  assert (Hlen : 0 < Z.of_nat (length z)) by (unfold z; cbn [length]; lia).
  destruct (le_loop_spec z x Hs 0 (S (length z)) 0 (Z.of_nat (length z)))
    as [i [Hi [Hb [H1 H2]]]]; try lia.
  { intros j v Hj; pose proof (elem_lt _ _ _ Hj); lia. }
  assert (E0 : elem z 0 z0) by (split; [lia|reflexivity]).
  destruct (Z.eq_dec i 0) as [->|Hne].
  - destruct (fle z0 x) eqn:Ev.
    + exists 0. split; [exact Hi|]. split; [lia|]. split.
      * intros j v Hj Hji. pose proof (elem_lt _ _ _ Hj).
        assert (j = 0) by lia. subst j. destruct Hj as [_ Hj], E0 as [_ E0]. congruence.
      * intros j v Hj Hji. destruct (H2 j v Hj Hji); auto; lia.
    + exists (-1). split; [exact Hi|]. split; [lia|]. split.
      * intros j v Hj Hji. pose proof (elem_lt _ _ _ Hj). lia.
      * intros j v Hj Hji. destruct (fle v x) eqn:Ew; [|reflexivity].
        rewrite (sorted_le_down z x 0 j z0 v) in Ev; auto. lia.
  - exists i. split; [rewrite Hi; f_equal; lia|]. split; [lia|].
    assert (Hiz : 0 <= i < Z.of_nat (length z)) by lia.
    destruct (pyget_some z i Hiz) as [w [_ Hw]].
    assert (Eiw : elem z i w) by (split; [lia|auto]).
    assert (Ewx : fle w x = true) by (apply (H1 i w Eiw); lia).
    split.
    + intros j v Hj Hji. apply (sorted_le_down z x j i v w); auto.
    + intros j v Hj Hji. destruct (H2 j v Hj Hji); auto; lia.
Qed.

(** Loop invariant of [ge]. *)
Lemma ge_loop_spec z x (Hs : sorted_array z) :
  forall fuel il ir,
    -1 <= il -> ir <= Z.of_nat (length z) -> 
    (ir - il <= Z.of_nat fuel \/ ir - 1 <= il) ->
    exists i, ge_loop fuel z x il ir = Found i /\ Z.min (il+1) ir <= i <= ir /\
      (forall j v, elem z j v -> il < j -> j < i -> fge v x = false) /\
      (forall j v, elem z j v -> i <= j -> j < ir -> fge v x = true).
Proof.
  induction fuel as [|fuel IH]; intros il ir H1 H2 Hf.
  - cbn [ge_loop]. destruct (il <? ir - 1) eqn:E; [lia|].
    exists ir. repeat split; auto; try lia; intros; lia.
  - cbn [ge_loop]. destruct (il <? ir - 1) eqn:E.
    + set (i := (il + ir) / 2).
      assert (Hi : il < i < ir) by (unfold i; lia).
      destruct (pyget_some z i) as [v [Hv Hn]]; [lia|].
      rewrite Hv.
      assert (Hel : elem z i v) by (split; [lia|exact Hn]).
      destruct (fge v x) eqn:Ev.
      * destruct (IH il i) as [k [Hk [Hb [Hk1 Hk2]]]]; try lia; auto.
        exists k. repeat split; auto; try lia.
        intros j w Hj Hkj Hjr.
        destruct (Z.lt_ge_cases j i) as [Hlt|Hge]; [apply (Hk2 j w); auto|].
        apply (sorted_ge_up z x i j v w); auto.
      * destruct (IH i ir) as [k [Hk [Hb [Hk1 Hk2]]]]; try lia; auto.
        exists k. repeat split; auto; try lia.
        intros j w Hj Hlj Hjk.
        destruct (Z.lt_ge_cases i j) as [Hlt|Hge]; [apply (Hk1 j w); auto|].
        destruct (fge w x) eqn:Ew; [|reflexivity].
        rewrite (sorted_ge_up z x j i w v) in Ev; auto.
    + exists ir. repeat split; auto; try lia; intros; lia.
Qed.

Lemma ge_search_exclusive z x :
  sorted_array z ->
  exists i, ge_search z x false = Found i /\ first_ge z x 0 (Z.of_nat (length z)) i.
Proof.
  intro Hs. unfold ge_search.
  destruct (ge_loop_spec z x Hs (S (length z)) (-1) (Z.of_nat (length z)))
    as [i [Hi [Hb [H1 H2]]]]; try lia.
  exists i. split; [exact Hi|]. split; [lia|]. split; intros; [eapply H1|eapply H2]; eauto; lia.
Qed.

(** Clamping the range from the right commutes with the search. *)
Lemma first_ge_clamp z x l r i :
  l < r <= Z.of_nat (length z) -> 0 <= l ->
  sorted_array z ->
  first_ge z x l (r - 1) i -> exists k, first_ge z x l r k /\ i = Z.min k (r - 1).
Proof.
  intros Hl Hl0 Hs [Hb [H1 H2]].
  destruct (Z.eq_dec i (r - 1)) as [->|Hne].
  - destruct (pyget_some z (r - 1)) as [v [_ Hv]]; [lia|].
    assert (Ev : elem z (r - 1) v) by (split; [lia|auto]).
    destruct (fge v x) eqn:E.
    + exists (r - 1). split; [|lia]. split; [lia|]. split; [exact H1|].
      intros j w Hj Hij Hjr. assert (j = r - 1) by lia. subst j.
      destruct Hj as [_ Hj], Ev as [_ Ev]. congruence.
    + exists r. split; [|lia]. split; [lia|]. split.
      * intros j w Hj Hlj Hjr. destruct (Z.eq_dec j (r - 1)) as [->|Hn].
        { destruct Hj as [_ Hj], Ev as [_ Ev]. congruence. }
        apply (H1 j w Hj); lia.
      * intros; lia.
  - exists i. split; [|lia]. split; [lia|]. split; [exact H1|].
    intros j w Hj Hij Hjr. destruct (Z.eq_dec j (r - 1)) as [->|Hn].
    + destruct (pyget_some z i) as [u [_ Hu]]; [lia|].
      assert (Eu : elem z i u) by (split; [lia|auto]).
      apply (sorted_ge_up z x i (r - 1) u w); auto. apply (H2 i u Eu); lia.
    + apply (H2 j w Hj); lia.
Qed.

Lemma ge_search_inclusive z x :
  sorted_array z ->
  exists i, ge_search z x true = Found (Z.min i (Z.of_nat (length z) - 1)) /\
       first_ge z x 0 (Z.of_nat (length z)) i.
Proof.
  intro Hs. unfold ge_search.
  destruct z as [|z0 zr].
  { exists 0. split; [reflexivity|]. split; [cbn; lia|].
    split; intros j v Hj; pose proof (elem_lt _ _ _ Hj); cbn in *; lia. }
  set (z := z0 :: zr) in *.
  assert (Hlen : 0 < Z.of_nat (length z)) by (unfold z; cbn [length]; lia).
  destruct (ge_loop_spec z x Hs (S (length z)) (-1) (Z.of_nat (length z) - 1))
    as [i [Hi [Hb [H1 H2]]]]; try lia.
  destruct (first_ge_clamp z x 0 (Z.of_nat (length z)) i) as [k [Hk ->]]; try lia; auto.
  - split; [lia|]. split; intros; [eapply H1|eapply H2]; eauto; lia.
  - exists k. split; [exact Hi|exact Hk].
Qed.

Lemma ge_lim_exclusive z x l r :
  sorted_array z -> 0 <= l <= r -> r <= Z.of_nat (length z) ->
  exists i, ge_lim z x false l r = Found i /\ first_ge z x l r i.
Proof.
  intros Hs Hl Hr. unfold ge_lim.
  destruct (ge_loop_spec z x Hs (S (length z)) (l - 1) r)
    as [i [Hi [Hb [H1 H2]]]]; try lia.
  exists i. split; [exact Hi|]. split; [lia|]. split; intros; [eapply H1|eapply H2]; eauto; lia.
Qed.

Lemma ge_lim_inclusive z x l r :
  sorted_array z -> 0 <= l <= r -> r <= Z.of_nat (length z) ->
  exists i, ge_lim z x true l r = Found (Z.min i (r - 1)) /\ first_ge z x l r i.
Proof.
  intros Hs Hl Hr. unfold ge_lim.
  destruct (Z.eq_dec l r) as [->|Hne].
  { exists r. replace (Z.min r (r - 1)) with (r - 1) by lia.
    split; [|split; [lia|split; intros; lia]].
    cbn [ge_loop]. destruct (r - 1 <? r - 1 - 1) eqn:E; [lia|reflexivity]. }
  destruct (ge_loop_spec z x Hs (S (length z)) (l - 1) (r - 1))
    as [i [Hi [Hb [H1 H2]]]]; try lia.
  destruct (first_ge_clamp z x l r i) as [k [Hk ->]]; try lia; auto.
  - split; [lia|]. split; intros; [eapply H1|eapply H2]; eauto; lia.
  - exists k. split; [exact Hi|exact Hk].
Qed.

(** The specification determines the index. *)
Lemma last_le_unique z x i k : last_le z x i -> last_le z x k -> i = k.
Proof.
  assert (W : forall i k, last_le z x i -> last_le z x k -> i < k -> False).
  { clear. intros i k [Hb [H1 H2]] [Kb [K1 K2]] Hlt.
    destruct (pyget_some z k) as [v [_ Hv]]; [lia|].
    assert (Ev : elem z k v) by (split; [lia|auto]).
    specialize (H2 k v Ev Hlt). specialize (K1 k v Ev). rewrite K1 in H2; [discriminate|lia]. }
  intros Hi Hk. destruct (Z.lt_trichotomy i k) as [H|[H|H]]; auto; exfalso; eauto.
Qed.

Lemma first_ge_unique z x l r i k :
  0 <= l -> r <= Z.of_nat (length z) ->
  first_ge z x l r i -> first_ge z x l r k -> i = k.
Proof.
  intros Hl Hr.
  assert (W : forall i k, first_ge z x l r i -> first_ge z x l r k -> i < k -> False).
  { intros i0 k0 [Hb [H1 H2]] [Kb [K1 K2]] Hlt.
    destruct (pyget_some z i0) as [v [_ Hv]]; [lia|].
    assert (Ev : elem z i0 v) by (split; [lia|auto]).
    specialize (K1 i0 v Ev). specialize (H2 i0 v Ev).
    rewrite K1 in H2; [|lia|lia]. discriminate H2; lia. }
  intros Hi Hk. destruct (Z.lt_trichotomy i k) as [H|[H|H]]; auto; exfalso; eauto.
Qed.

(** Decision procedure for concrete sorted arrays. *)
Fixpoint sorted_check (l : list fnum) : bool :=
  match l with
  | [] => true
  | a :: r => negb (isnan a) &&
              match r with [] => true | b :: _ => fle a b end && sorted_check r
  end.

Lemma sorted_check_sound l : sorted_check l = true -> sorted_array l.
Proof.
  induction l as [|a r IH]; intro H.
  - split; [constructor|]. intros i j x y _ Hx. destruct i; discriminate.
  - cbn [sorted_check] in H. apply andb_prop in H. destruct H as [H Hr].
    apply andb_prop in H. destruct H as [Ha Hab].
    destruct (IH Hr) as [Hn Hs]. split.
    + constructor; [|exact Hn]. intros ->. discriminate.
    + assert (G : forall j y, nth_error r j = Some y -> fle a y = true).
      { intros j y Hy. destruct r as [|b r']; [destruct j; discriminate|].
        destruct j as [|j]; [cbn in Hy; congruence|].
        apply (fle_trans a b y); [exact Hab|].
        apply (Hs 0%nat (S j)); [lia|reflexivity|exact Hy]. }
      intros [|i] [|j] x y Hij Hx Hy; cbn in Hx, Hy; try lia.
      * injection Hx as <-. eauto.
      * apply (Hs i j); auto. lia.
Qed.
