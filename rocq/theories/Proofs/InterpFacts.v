(** The quantile transform (C10). *)
From Coq Require Import ZArith NArith QArith Qfield List Bool Lia Lqa ZifyBool.
From Verif.Model Require Import Num BinarySearch Flags Ecdf BinTransform.
From Verif.Spec Require Import SearchSpec BinningSpec.
From Verif.Proofs Require Import NumFacts FnumOrder BinarySearchFacts EcdfFacts ReduceFacts FitFacts TransformFacts.
Import ListNotations.
Local Open Scope Q_scope.


Lemma nondecreasing_le l i j a b : nondecreasing l -> (i <= j)%nat ->
  nth_error l i = Some a -> nth_error l j = Some b -> a <= b.
Proof.
  intros H Hij Ha Hb. destruct (Nat.eq_dec i j) as [->|]; [replace b with a by congruence; lra|].
  apply (H i j); auto. lia.
Qed.

Lemma nondecreasing_sorted l : nondecreasing l -> sorted_array (map Fin l).
Proof.
  intro H. split.
  - apply Forall_forall. intros v Hv. apply in_map_iff in Hv. destruct Hv as (q & <- & _). discriminate.
  - intros i j a b Hij Ha Hb. rewrite nth_error_map in Ha, Hb.
    destruct (nth_error l i) as [x|] eqn:Ei; [|discriminate].
    destruct (nth_error l j) as [y|] eqn:Ej; [|discriminate].
    cbn in Ha, Hb. injection Ha as <-. injection Hb as <-. apply fle_Fin. eapply H; eauto.
Qed.

(** Interpolated value between two neighbours. *)
Lemma interp_bounds x z0 z1 u0 u1 : z0 <= x -> x <= z1 -> z0 < z1 -> u0 <= u1 ->
  u0 <= u0 + (x - z0) / (z1 - z0) * (u1 - u0) <= u1.
Proof.
  intros H1 H2 H3 H4.
  assert (P : 0 < / (z1 - z0)) by (apply Qinv_lt_0_compat; lra).
  assert (T0 : 0 <= (x - z0) / (z1 - z0)) by (apply Qmult_le_0_compat; lra).
  assert (T1 : (x - z0) / (z1 - z0) <= 1) by (apply Qle_shift_div_r; lra).
  set (t := (x - z0) / (z1 - z0)) in *. split; nra.
Qed.

Lemma interp_mono x y z0 z1 u0 u1 : x <= y -> z0 < z1 -> u0 <= u1 ->
  u0 + (x - z0) / (z1 - z0) * (u1 - u0) <= u0 + (y - z0) / (z1 - z0) * (u1 - u0).
Proof.
  intros H1 H3 H4.
  assert (P : 0 < / (z1 - z0)) by (apply Qinv_lt_0_compat; lra).
  assert (T : (x - z0) / (z1 - z0) <= (y - z0) / (z1 - z0)).
  { unfold Qdiv. apply Qmult_le_compat_r; lra. }
  set (t := (x - z0) / (z1 - z0)) in *. set (s := (y - z0) / (z1 - z0)) in *. nra.
Qed.

Section Interp.
Variables (z u : list Q) (e : Q).
Hypothesis Hz : nondecreasing z.
Hypothesis Hu : nondecreasing u.
Hypothesis Hlen : length z = length u.
Hypothesis Hne : z <> [].
Hypothesis He : 0 <= e.

(** Description of the value: the last boundary <= x + e, and the value. *)
Definition position (x : Q) (i : Z) : Prop := last_le (map Fin z) (Fin (x + e)) i.

Lemma position_exists x : exists i, le_search (map Fin z) (fadd (Fin x) (Fin e)) false = Found i /\ position x i.
Proof. apply le_search_exclusive. apply nondecreasing_sorted; auto. Qed.

Lemma elem_fin j v : elem (map Fin z) j v <-> exists q, v = Fin q /\ (0 <= j)%Z /\ nth_error z (Z.to_nat j) = Some q.
Proof.
  unfold elem. rewrite nth_error_map. split.
  - intros [H0 H]. destruct (nth_error z (Z.to_nat j)) as [q|] eqn:E; [|discriminate].
    cbn in H. injection H as <-. exists q. auto.
  - intros (q & -> & H0 & H). rewrite H. auto.
Qed.

Lemma interp_value x : exists i, position x i /\
  ((i = (-1)%Z /\ le_interp z (Fin x) u 0 e = Some (Some 0)) \/
   ((0 <= i < Z.of_nat (length z))%Z /\ exists zi ui, nth_error z (Z.to_nat i) = Some zi /\ nth_error u (Z.to_nat i) = Some ui /\
      zi <= x + e /\
      ((le_interp z (Fin x) u 0 e = Some (Some ui) /\ (x <= zi \/ i = (Z.of_nat (length z) - 1)%Z)) \/
       (zi < x /\ exists z1 u1, nth_error z (S (Z.to_nat i)) = Some z1 /\ nth_error u (S (Z.to_nat i)) = Some u1 /\
          x + e < z1 /\
          le_interp z (Fin x) u 0 e = Some (Some (ui + (x - zi) / (z1 - zi) * (u1 - ui))))))).
Proof.
  unfold le_interp.
  destruct (position_exists x) as (i & -> & Hi). exists i. split; auto.
  destruct Hi as (Hb & H1 & H2). rewrite map_length in Hb.
  assert (Hl : (0 < Z.of_nat (length z))%Z) by (destruct z; [congruence|cbn; lia]).
  destruct (Z.of_nat (length z) =? 0)%Z eqn:E0; [lia|].
  destruct (Z.eq_dec i (-1)) as [->|Hi].
  - left. split; auto. rewrite !pyget_neg1 by (destruct z, u; cbn in *; congruence).
    destruct (nth_error z (length z - 1)) eqn:Ez; [|apply nth_error_None in Ez; lia].
    destruct (nth_error u (length u - 1)) eqn:Eu; [|apply nth_error_None in Eu; lia].
    reflexivity.
  - right. split; [lia|].
    destruct (pyget_some z i) as [zi [-> Hzi]]; [lia|].
    destruct (pyget_some u i) as [ui [-> Hui]]; [lia|].
    exists zi, ui. split; auto. split; auto.
    assert (Bz : zi <= x + e).
    { apply fle_Fin. apply (H1 i (Fin zi)); [|lia]. apply elem_fin. exists zi. repeat split; auto. lia. }
    split; auto.
    destruct (i <? 0)%Z eqn:Ei; [lia|].
    destruct (i <? Z.of_nat (length z) - 1)%Z eqn:En; cbn [andb].
    + destruct (Qle_bool x zi) eqn:Ex; cbn [negb].
      * left. split; auto. left. apply Qle_bool_iff; auto.
      * right. apply Qle_bool_false in Ex. split; auto.
        destruct (pyget_some z (i + 1)) as [z1 [-> Hz1]]; [lia|].
        destruct (pyget_some u (i + 1)) as [u1 [-> Hu1]]; [lia|].
        exists z1, u1. replace (S (Z.to_nat i)) with (Z.to_nat (i + 1)) by lia.
        repeat split; auto.
        apply fle_Fin_false. apply (H2 (i + 1)%Z (Fin z1)); [|lia]. apply elem_fin. exists z1. repeat split; auto. lia.
    + left. split; auto. right. lia.
Qed.

Lemma position_mono x y i j : x <= y -> position x i -> position y j -> (i <= j)%Z.
Proof.
  intros Hxy (Bi & I1 & I2) (Bj & J1 & J2).
  destruct (Z_le_gt_dec i j) as [|G]; auto. exfalso. rewrite map_length in Bi.
  destruct (pyget_some z i) as [v [_ Hv]]; [lia|].
  assert (Ev : elem (map Fin z) i (Fin v)) by (apply elem_fin; exists v; repeat split; auto; lia).
  specialize (I1 i _ Ev ltac:(lia)). specialize (J2 i _ Ev ltac:(lia)).
  apply fle_Fin in I1. apply fle_Fin_false in J2. lra.
Qed.

Hypothesis Hu0 : forall c, In c u -> 0 <= c <= 1.

Lemma interp_range x : exists r, le_interp z (Fin x) u 0 e = Some (Some r) /\ 0 <= r <= 1.
Proof.
  destruct (interp_value x) as (i & _ & [[_ ->]|(Hi & zi & ui & Ez & Eu & Bz & [[-> _]|(Lx & z1 & u1 & Ez1 & Eu1 & B1 & ->)])]).
  - exists 0. split; auto. lra.
  - exists ui. split; auto. apply Hu0. eapply nth_error_In; eauto.
  - eexists. split; [reflexivity|].
    pose proof (Hu0 ui (nth_error_In _ _ Eu)). pose proof (Hu0 u1 (nth_error_In _ _ Eu1)).
    assert (ui <= u1) by (apply (Hu (Z.to_nat i) (S (Z.to_nat i))); auto).
    pose proof (interp_bounds x zi z1 ui u1 ltac:(lra) ltac:(lra) ltac:(lra) ltac:(lra)). lra.
Qed.

Lemma interp_monotone x y r s : x <= y ->
  le_interp z (Fin x) u 0 e = Some (Some r) -> le_interp z (Fin y) u 0 e = Some (Some s) -> r <= s.
Proof.
  intros Hxy Hr Hs.
  destruct (interp_value x) as (i & Pi & Ci). destruct (interp_value y) as (j & Pj & Cj).
  pose proof (position_mono x y i j Hxy Pi Pj) as Hij.
  assert (S0 : 0 <= s).
  { destruct (interp_range y) as (s' & Hs' & B). rewrite Hs in Hs'. injection Hs' as <-. lra. }
  destruct Ci as [[-> Ci]|(Hi & zi & ui & Ez & Eu & Bz & Ci)].
  { rewrite Ci in Hr. injection Hr as <-. auto. }
  destruct Cj as [[-> Cj]|(Hj & zj & uj & Fz & Fu & Cz & Cj)]; [lia|].
  (* s is at least u_j *)
  assert (Sj : uj <= s).
  { destruct Cj as [[Cj _]|(Ly & z1 & u1 & Ez1 & Eu1 & B1 & Cj)]; rewrite Cj in Hs; injection Hs as <-; [lra|].
    assert (uj <= u1) by (apply (Hu (Z.to_nat j) (S (Z.to_nat j))); auto).
    pose proof (interp_bounds y zj z1 uj u1 ltac:(lra) ltac:(lra) ltac:(lra) ltac:(lra)). lra. }
  assert (Uij : ui <= uj) by (apply (nondecreasing_le u (Z.to_nat i) (Z.to_nat j)); auto; lia).
  destruct Ci as [[Ci _]|(Lx & z1 & u1 & Ez1 & Eu1 & B1 & Ci)]; rewrite Ci in Hr; injection Hr as <-; [lra|].
  assert (ui <= u1) by (apply (Hu (Z.to_nat i) (S (Z.to_nat i))); auto).
  pose proof (interp_bounds x zi z1 ui u1 ltac:(lra) ltac:(lra) ltac:(lra) ltac:(lra)) as IB.
  destruct (Z.eq_dec i j) as [<-|Hne'].
  - replace zj with zi in * by congruence. replace uj with ui in * by congruence.
    destruct Cj as [[Cj D]|(Ly & z1' & u1' & Fz1 & Fu1 & B1' & Cj)]; rewrite Cj in Hs; injection Hs as <-.
    + exfalso. destruct D as [D|D]; [lra|].
      assert (S (Z.to_nat i) < length z)%nat by (apply nth_error_Some; congruence). lia.
    + replace z1' with z1 in * by congruence. replace u1' with u1 in * by congruence.
      apply interp_mono; lra.
  - assert (u1 <= uj) by (apply (nondecreasing_le u (S (Z.to_nat i)) (Z.to_nat j)); auto; lia). lra.
Qed.

(** At a boundary separated from the next one by more than epsilon, the
    learned probability is returned. *)
Lemma interp_at_boundary k zk uk :
  nth_error z k = Some zk -> nth_error u k = Some uk ->
  (forall z1, nth_error z (S k) = Some z1 -> zk + e < z1) ->
  le_interp z (Fin zk) u 0 e = Some (Some uk).
Proof.
  intros Ek Fk Hgap.
  assert (Lk : (k < length z)%nat) by (apply nth_error_Some; congruence).
  assert (P : position zk (Z.of_nat k)).
  { split; [rewrite map_length; lia|]. split.
    - intros j v Hj Hjk. apply elem_fin in Hj. destruct Hj as (q & -> & Hj0 & Hq). apply fle_Fin.
      assert (q <= zk) by (apply (nondecreasing_le z (Z.to_nat j) k); auto; lia). lra.
    - intros j v Hj Hjk. apply elem_fin in Hj. destruct Hj as (q & -> & Hj0 & Hq). apply fle_Fin_false.
      assert (Lj : (Z.to_nat j < length z)%nat) by (apply nth_error_Some; congruence).
      destruct (nth_error z (S k)) as [z1|] eqn:E1; [|apply nth_error_None in E1; lia].
      specialize (Hgap z1 eq_refl).
      assert (z1 <= q) by (apply (nondecreasing_le z (S k) (Z.to_nat j)); auto; lia). lra. }
  destruct (interp_value zk) as (i & Pi & Ci).
  pose proof (last_le_unique _ _ _ _ Pi P) as ->.
  destruct Ci as [[Hn _]|(Hi & zi & ui & Ez & Eu & Bz & Ci)]; [lia|].
  rewrite Nat2Z.id in *. replace zi with zk in * by congruence. replace ui with uk in * by congruence.
  destruct Ci as [[Ci _]|(Lx & _)]; auto. lra.
Qed.

Lemma interp_below x : (forall v, In v z -> x + e < v) -> le_interp z (Fin x) u 0 e = Some (Some 0).
Proof.
  intro H. destruct (interp_value x) as (i & _ & [[_ ->]|(Hi & zi & ui & Ez & Eu & Bz & _)]); auto.
  specialize (H zi (nth_error_In _ _ Ez)). lra.
Qed.

Lemma interp_above x ul : (forall v, In v z -> v <= x) -> nth_error u (length u - 1) = Some ul ->
  le_interp z (Fin x) u 0 e = Some (Some ul).
Proof.
  intros H Hul. 
  assert (Hl : (0 < length z)%nat) by (destruct z; [congruence|cbn; lia]).
  assert (P : position x (Z.of_nat (length z) - 1)).
  { split; [rewrite map_length; lia|]. split.
    - intros j v Hj _. apply elem_fin in Hj. destruct Hj as (q & -> & Hj0 & Hq). apply fle_Fin.
      specialize (H q (nth_error_In _ _ Hq)). lra.
    - intros j v Hj Hjk. apply elem_fin in Hj. destruct Hj as (q & -> & Hj0 & Hq).
      assert (Z.to_nat j < length z)%nat by (apply nth_error_Some; congruence). lia. }
  destruct (interp_value x) as (i & Pi & Ci).
  pose proof (last_le_unique _ _ _ _ Pi P) as ->.
  destruct Ci as [[Hn _]|(Hi & zi & ui & Ez & Eu & Bz & Ci)]; [lia|].
  replace (Z.to_nat (Z.of_nat (length z) - 1)) with (length u - 1)%nat in * by lia.
  replace ui with ul in * by congruence.
  destruct Ci as [[Ci _]|(Lx & z1 & u1 & Ez1 & _)]; auto.
  assert (S (length u - 1) < length z)%nat by (apply nth_error_Some; congruence). lia.
Qed.

Lemma interp_nan x : le_interp z x u 0 e = Some None <-> isfinite x = false.
Proof.
  destruct x as [x| | |]; cbn [isfinite]; try (split; intro; auto; reflexivity).
  destruct (interp_range x) as (r & -> & _). split; intro; discriminate.
Qed.
End Interp.
