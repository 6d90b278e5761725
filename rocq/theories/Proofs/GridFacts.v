(** Where the boundaries of the adaptive binning lie. *)
From Coq Require Import ZArith NArith QArith Qround Qfield List Bool Lia Lqa ZifyBool.
From Verif.Model Require Import Num BinarySearch Flags Ecdf.
From Verif.Spec Require Import SearchSpec BinningSpec.
From Verif.Proofs Require Import NumFacts FnumOrder BinarySearchFacts EcdfFacts ReduceFacts FitFacts.
Import ListNotations.
Local Open Scope Q_scope.

Lemma aim_searched n tol c c' : (2 <= n)%Z -> 0 <= tol < 1 -> c' == c ->
  aim n tol c' (searched_of (1 / inject_Z n) tol c).
Proof.
  intros Hn Htol Ec.
  assert (HnQ : 0 < inject_Z n) by (change 0 with (inject_Z 0); rewrite <- Zlt_Qlt; lia).
  assert (Hpos : 0 < 1 / inject_Z n).
  { unfold Qdiv. rewrite Qmult_1_l. apply Qinv_lt_0_compat; auto. }
  destruct (Qmod_decomp c (1 / inject_Z n) Hpos) as (q & Er & H1 & H2).
  assert (E1 : inject_Z q / inject_Z n == 1 / inject_Z n * inject_Z q) by (field; lra).
  assert (E2 : inject_Z (q + 1) / inject_Z n == 1 / inject_Z n * inject_Z (q + 1)) by (field; lra).
  assert (E3 : tol / inject_Z n == tol * (1 / inject_Z n)) by (field; lra).
  exists q. rewrite E1, E2, E3, Ec. split; [auto|]. split; [auto|].
  unfold searched_of. cbv zeta. rewrite inject_Z_S.
  destruct (Qle_bool (Qmod c (1 / inject_Z n)) (tol * (1 / inject_Z n))) eqn:E.
  - apply Qle_bool_iff in E. rewrite Er in E. left. split; [exact E|]. rewrite Er. ring.
  - apply Qle_bool_false in E. rewrite Er in E. right. split; [exact E|]. reflexivity.
Qed.

Lemma boundaries_placed zs cs n eps tol :
  distribution zs cs -> (2 <= n)%Z -> 0 <= tol < 1 ->
  0 <= eps -> eps < (1 - tol) / inject_Z n ->
  exists bb cc, reduce_cdf zs cs n eps tol = ReduceOk bb cc /\
    forall i c b, nth_error cc i = Some c -> nth_error bb (S i) = Some b ->
    exists t k ck, aim n tol c t /\ first_reaching cs (t - eps) k ck /\
      (nth_error zs k = Some b \/
       (S i = length bb - 1)%nat /\ Some b = nth_error zs (length zs - 1) /\
       exists t', aim n tol ck t' /\ 1 + tol / inject_Z n < t').
Proof.
  intros Hd Hn Htol He0 He1.
  pose proof (distribution_facts _ _ Hd) as (Hl & Hne & Hinc & Hf & Hlast).
  assert (HnQ : 0 < inject_Z n) by (change 0 with (inject_Z 0); rewrite <- Zlt_Qlt; lia).
  set (share := 1 / inject_Z n).
  assert (Hshare : share * inject_Z n == 1) by (unfold share; field; lra).
  assert (Hpos : 0 < share).
  { unfold share, Qdiv. rewrite Qmult_1_l. apply Qinv_lt_0_compat; auto. }
  assert (Es : (1 - tol) / inject_Z n == (1 - tol) * share) by (unfold share; field; lra).
  pose proof (reduce_outcome zs cs n share tol eps Hl Hne Hinc Hf Hlast Hn Hshare Hpos Htol) as O.
  destruct O as (pre & k & cc & Hr & Hcc & Hhd & (G1 & G2 & G3) & Hlim & Hch & Hfin); [rewrite <- Es; split; auto|].
  set (nb := fun i => nth i zs NaN) in *.
  exists (nb 0%nat :: map nb (pre ++ [k])), cc.
  split.
  { unfold reduce_cdf. destruct (n <? 2)%Z eqn:E; [lia|].
    rewrite (pyget_in_range zs) by lia. change (Z.to_nat 0) with 0%nat.
    rewrite (nth_error_nth' zs NaN) by lia. exact Hr. }
  assert (R : forall c a j, c == a -> (j < length cs)%nat -> reach cs share tol eps a j ->
    exists t ck, aim n tol c t /\ first_reaching cs (t - eps) j ck /\ ck = nth j cs 0).
  { intros c a j Ec Hj (R1 & R2). exists (searched_of share tol a), (nth j cs 0).
    split; [apply aim_searched; auto|]. split; auto. split; [apply nth_error_nth'; auto|]. split; [exact R1|].
    intros x cx Hx Hcx. rewrite <- (nth_error_nth _ _ 0 Hcx). apply R2; auto. }
  intros i c b Hc Hb. cbn [nth_error] in Hb. rewrite nth_error_map in Hb.
  destruct (nth_error (pre ++ [k]) i) as [x|] eqn:Ex; [|discriminate]. cbn in Hb. injection Hb as <-.
  assert (Hx : (x < length cs)%nat) by (apply G2; eapply nth_error_In; eauto).
  assert (Li : (i < length pre + 1)%nat).
  { assert (i < length (pre ++ [k]))%nat by (apply nth_error_Some; congruence). rewrite app_length in H. cbn in H. lia. }
  assert (Lv : forall z, length (cvals cs (pre ++ [z])) = S (length pre + 1)).
  { intro z. unfold cvals. cbn. rewrite map_length, app_length. cbn. lia. }
  destruct (nth_error (cvals cs (pre ++ [k])) i) as [a|] eqn:Ea.
  2:{ apply nth_error_None in Ea. rewrite Lv in Ea. lia. }
  pose proof (Forall2_nth _ _ _ _ _ _ Hcc Hc Ea) as Eca.
  assert (Ea' : forall z, nth_error (cvals cs (pre ++ [z])) i = Some a).
  { intro z. rewrite <- Ea. unfold cvals. rewrite !map_app, !app_comm_cons.
    rewrite !nth_error_app1 by (cbn; rewrite map_length; lia). reflexivity. }
  destruct Hch as [Hch|(Ek & k0 & Hch & Hk0 & Hend)].
  - destruct (R c a x Eca Hx) as (t & ck & Ht & Hck & _); [eapply Hch; eauto|].
    exists t, x, ck. split; auto. split; auto. left. apply nth_error_nth'. lia.
  - destruct (Nat.eq_dec i (length pre)) as [->|Hi].
    + assert (x = k).
      { rewrite nth_error_app2, Nat.sub_diag in Ex by lia. cbn in Ex. congruence. } subst x.
      destruct (R c a k0 Eca Hk0) as (t & ck & Ht & Hck & Eck).
      { eapply Hch; [apply Ea'|]. rewrite nth_error_app2, Nat.sub_diag by lia. reflexivity. }
      exists t, k0, ck. split; auto. split; auto. right.
      split; [cbn; rewrite map_length, app_length; cbn; lia|].
      split; [rewrite Ek, <- Hl; symmetry; apply nth_error_nth'; lia|].
      exists (searched_of share tol (nth k0 cs 0)). subst ck. split; [apply aim_searched; auto; reflexivity|].
      assert (E3 : tol / inject_Z n == tol * share) by (unfold share; field; lra). rewrite E3. exact Hend.
    + assert (Ex' : nth_error (pre ++ [k0]) i = Some x).
      { rewrite nth_error_app1 in Ex |- * by lia. exact Ex. }
      destruct (R c a x Eca Hx) as (t & ck & Ht & Hck & _); [eapply Hch; eauto|].
      exists t, x, ck. split; auto. split; auto. left. apply nth_error_nth'. lia.
Qed.

Lemma aim_bound n tol c t : (2 <= n)%Z -> aim n tol c t -> t <= c + 1 / inject_Z n.
Proof.
  intros Hn (m & H1 & H2 & H3).
  assert (HnQ : 0 < inject_Z n) by (change 0 with (inject_Z 0); rewrite <- Zlt_Qlt; lia).
  assert (E : inject_Z (m + 1) / inject_Z n == inject_Z m / inject_Z n + 1 / inject_Z n).
  { rewrite inject_Z_S. field. lra. }
  destruct H3 as [[_ H3]|[_ H3]]; rewrite H3; lra.
Qed.

Lemma bins_not_coarse zs cs n eps tol d :
  distribution zs cs -> (2 <= n)%Z -> 0 <= tol < 1 ->
  0 <= eps -> eps < (1 - tol) / inject_Z n ->
  (forall c, nth_error cs 0 = Some c -> c <= d) ->
  (forall k c c', nth_error cs k = Some c -> nth_error cs (S k) = Some c' -> c' - c <= d) ->
  exists bb cc, reduce_cdf zs cs n eps tol = ReduceOk bb cc /\
    forall i c c', (S i < length cc - 1)%nat -> nth_error cc i = Some c -> nth_error cc (S i) = Some c' ->
    c' - c <= 1 / inject_Z n - eps + d.
Proof.
  intros Hd Hn Htol He0 He1 D0 D1.
  destruct (boundaries_placed zs cs n eps tol Hd Hn Htol He0 He1) as (bb & cc & Hr & Hp).
  destruct (reduce_main zs cs n eps tol Hd Hn Htol He0 He1) as (bb' & cc' & Hr' & V & _).
  rewrite Hr in Hr'. injection Hr' as <- <-.
  exists bb, cc. split; auto. intros i c c' Hi Hc Hc'.
  destruct V as (Vl & _ & _ & V0 & _ & Vc & V & _).
  destruct (nth_error bb (S i)) as [b|] eqn:Eb; [|apply nth_error_None in Eb; lia].
  destruct (Hp i c b Hc Eb) as (t & k & ck & Ha & (F1 & F2 & F3) & [Hz|(K & _)]); [|lia].
  destruct (V (S i) b c' ltac:(lia) Eb Hc') as (k2 & c2 & Hz2 & Hc2 & E2).
  assert (k2 = k).
  { destruct Hd as (_ & _ & Hinz & _).
    destruct (Nat.lt_trichotomy k2 k) as [L|[L|L]]; auto; exfalso.
    - pose proof (Hinz _ _ _ _ L Hz2 Hz) as X. rewrite flt_irrefl in X. discriminate.
    - pose proof (Hinz _ _ _ _ L Hz Hz2) as X. rewrite flt_irrefl in X. discriminate. }
  subst k2. assert (c2 = ck) by congruence. subst c2. rewrite E2.
  pose proof (aim_bound n tol c t Hn Ha) as Bt.
  destruct k as [|k].
  - specialize (D0 ck F1).
    assert (0 <= c).
    { destruct i as [|i]; [rewrite V0 in Hc; injection Hc as <-; lra|].
      pose proof (Vc 0%nat (S i) 0 c ltac:(lia) V0 Hc). lra. }
    assert (HnQ : 0 < inject_Z n) by (change 0 with (inject_Z 0); rewrite <- Zlt_Qlt; lia).
    assert (E1 : (1 - tol) / inject_Z n == 1 / inject_Z n - tol / inject_Z n) by (field; lra).
    assert (0 <= tol / inject_Z n).
    { apply Qle_shift_div_l; auto. lra. }
    lra.
  - destruct (nth_error cs k) as [cj|] eqn:Ej.
    2:{ apply nth_error_None in Ej. assert (S k < length cs)%nat by (apply nth_error_Some; congruence). lia. }
    specialize (D1 k cj ck Ej F1). specialize (F3 k cj ltac:(lia) Ej). lra.
Qed.

Lemma ex_placed : exists t, aim 2 (1#10) 0 t /\ first_reaching [1#8; 1#2; 7#8; 1] t 1 (1#2).
Proof.
  exists (1#2). split.
  - exists 0%Z. cbn. split; [discriminate|]. split; [reflexivity|]. left. split; [discriminate|reflexivity].
  - split; [reflexivity|]. split; [discriminate|]. intros [|j] cj Hj Hc; [|lia]. injection Hc as <-. reflexivity.
Qed.
