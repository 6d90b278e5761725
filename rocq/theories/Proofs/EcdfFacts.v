(** The empirical distribution computed by the fit (C09). *)
From Coq Require Import ZArith NArith QArith List Bool Lia Lqa Permutation.
From Verif.Model Require Import Num BinarySearch Flags Ecdf.
From Verif.Spec Require Import SearchSpec BinningSpec.
From Verif.Proofs Require Import NumFacts FnumOrder.
Import ListNotations.
Local Open Scope Q_scope.

(** ** np.unique *)
Inductive StrictSorted : list fnum -> Prop :=
| SS_nil : StrictSorted []
| SS_cons a l : a <> NaN -> (forall x, In x l -> flt a x = true) -> StrictSorted l ->
                StrictSorted (a :: l).

Lemma insert_unique_in x l y : In y (insert_unique x l) -> y = x \/ In y l.
Proof.
  induction l as [|a r IH]; cbn; [intuition congruence|].
  destruct (feq x a); [cbn; tauto|]. destruct (fle x a); cbn; [intuition congruence|].
  intros [H|H]; [tauto|]. apply IH in H; tauto.
Qed.

Lemma insert_unique_sorted x l : x <> NaN -> StrictSorted l -> StrictSorted (insert_unique x l).
Proof.
  intros Hx H. induction H as [|a l Ha Hlt Hs IH]; cbn.
  - constructor; [exact Hx|intros y []|constructor].
  - destruct (feq x a) eqn:E; [constructor; auto|].
    destruct (fle x a) eqn:E2.
    + pose proof (fle_neq_lt _ _ E2 E) as L. constructor; auto.
      * intros y [<-|Hy]; auto. eapply flt_trans; eauto.
      * constructor; auto.
    + pose proof (not_fle_lt _ _ Hx Ha E2) as L. constructor; auto.
      intros y Hy. apply insert_unique_in in Hy. destruct Hy as [->|Hy]; auto.
Qed.

Lemma insert_unique_occurs x l v : x <> NaN ->
  (occurs v (insert_unique x l) <-> feq x v = true \/ occurs v l).
Proof.
  intro Hx. unfold occurs. induction l as [|a r IH]; cbn.
  - split; [intros (y & [->|[]] & H); auto|]. intros [H|(y & [] & _)]. exists x. auto.
  - destruct (feq x a) eqn:E.
    + split; [intros (y & H & H1); right; exists y; auto|].
      intros [H|(y & H & H1)]; [|exists y; auto].
      exists a. split; [left; auto|]. eapply feq_trans; [rewrite feq_sym; exact E|exact H].
    + destruct (fle x a) eqn:E2.
      * cbn. split.
        { intros (y & [<-|H] & H1); auto. right; exists y; auto. }
        { intros [H|(y & H & H1)]; [exists x; auto|exists y; auto]. }
      * cbn. split.
        { intros (y & [<-|H] & H1); [right; exists a; auto|].
          assert (Hy : exists y, In y (insert_unique x r) /\ feq y v = true) by (exists y; auto).
          apply IH in Hy. destruct Hy as [Hy|(u & Hu & Hv)]; auto. right; exists u; auto. }
        { intros [H|(y & [<-|H] & H1)].
          - destruct IH as [_ IH]. destruct IH as (u & Hu & Hv); [auto|]. exists u; auto.
          - exists a; auto.
          - destruct IH as [_ IH]. destruct IH as (u & Hu & Hv); [right; exists y; auto|]. exists u; auto. }
Qed.

Lemma np_unique_sorted l : (forall x, In x l -> x <> NaN) -> StrictSorted (np_unique l).
Proof.
  induction l as [|a r IH]; intro H; cbn; [constructor|].
  apply insert_unique_sorted; [apply H; left; auto|]. apply IH. intros; apply H; right; auto.
Qed.

Lemma np_unique_occurs l v : (forall x, In x l -> x <> NaN) -> (occurs v (np_unique l) <-> occurs v l).
Proof.
  induction l as [|a r IH]; intro H; cbn; [tauto|].
  rewrite insert_unique_occurs by (apply H; left; auto).
  rewrite IH by (intros; apply H; right; auto). unfold occurs. cbn. split.
  - intros [H1|(y & Hy & H1)]; [exists a; auto|exists y; auto].
  - intros (y & [->|Hy] & H1); [auto|right; exists y; auto].
Qed.

Lemma np_unique_in l x : In x (np_unique l) -> In x l.
Proof.
  induction l as [|a r IH]; cbn; [tauto|]. intro H. apply insert_unique_in in H.
  destruct H as [->|H]; auto.
Qed.

Lemma StrictSorted_increasing l : StrictSorted l -> increasing l.
Proof.
  induction 1 as [|a l Ha Hlt Hs IH]; intros i j x y Hij Hx Hy.
  - destruct i; discriminate.
  - destruct j; [lia|]. cbn in Hy. destruct i as [|i]; cbn in Hx.
    + injection Hx as <-. apply Hlt. eapply nth_error_In; eauto.
    + apply (IH i j); auto. lia.
Qed.

Lemma StrictSorted_sorted_array l : StrictSorted l -> sorted_array l.
Proof.
  intro H. split.
  - clear - H. induction H; constructor; auto.
  - intros i j a b Hij Ha Hb. apply flt_le. eapply StrictSorted_increasing; eauto.
Qed.

Lemma StrictSorted_no_nan l x : StrictSorted l -> In x l -> x <> NaN.
Proof. induction 1; intros []; subst; auto. Qed.

Definition nonnan (zw : list (fnum * Q)) : list fnum := filter (fun v => negb (isnan v)) (map fst zw).

Lemma nonnan_not zw x : In x (nonnan zw) -> x <> NaN.
Proof. unfold nonnan. rewrite filter_In. intros [_ H] ->. discriminate. Qed.

Lemma z_unique_sorted zw : StrictSorted (z_unique zw).
Proof. apply np_unique_sorted. apply nonnan_not. Qed.

Lemma z_unique_occurs zw v : occurs v (z_unique zw) <-> occurs v (map fst zw).
Proof.
  unfold z_unique. rewrite np_unique_occurs by apply nonnan_not. unfold occurs. split.
  - intros (x & Hx & E). apply filter_In in Hx. exists x. tauto.
  - intros (x & Hx & E). exists x. split; auto. apply filter_In. split; auto.
    apply feq_not_nan in E. destruct x; auto; tauto.
Qed.

Lemma z_unique_in zw x : In x (z_unique zw) -> exists w, In (x, w) zw.
Proof.
  intro H. apply np_unique_in in H. apply filter_In in H. destruct H as [H _].
  apply in_map_iff in H. destruct H as ([x' w] & <- & H). exists w; auto.
Qed.

(** ** Weights *)
Lemma Qsum_app a b : Qsum (a ++ b) == Qsum a + Qsum b.
Proof. unfold Qsum. induction a; cbn; [lra|]. rewrite IHa. lra. Qed.

Lemma Qsum_filter_where (P : fnum -> bool) zw :
  Qsum (map snd (filter (fun p => P (fst p)) zw)) == weight_where P zw.
Proof.
  induction zw as [|[x w] r IH]; cbn; [lra|]. destruct (P x); cbn; [|exact IH].
  fold (Qsum (map snd (filter (fun p => P (fst p)) r))). rewrite IH. lra.
Qed.

Lemma group_weight_where zw k : group_weight zw k == weight_where (fun x => feq x k) zw.
Proof. apply (Qsum_filter_where (fun x => feq x k)). Qed.

Lemma cdf_wsum_total zw : cdf_wsum zw == weight_total zw.
Proof. apply (Qsum_filter_where (fun x => negb (isnan x))). Qed.

Lemma weight_where_ext P P' zw :
  (forall x w, In (x, w) zw -> P x = P' x) -> weight_where P zw == weight_where P' zw.
Proof.
  induction zw as [|[x w] r IH]; intro H; cbn; [lra|].
  rewrite (H x w) by (left; auto). assert (E : weight_where P r == weight_where P' r)
    by (apply IH; intros; eapply H; right; eauto).
  destruct (P' x); [rewrite E; reflexivity|exact E].
Qed.

Lemma weight_where_disjoint P P' zw :
  (forall x w, In (x, w) zw -> P x && P' x = false) ->
  weight_where P zw + weight_where P' zw == weight_where (fun x => P x || P' x) zw.
Proof.
  induction zw as [|[x w] r IH]; intro H; cbn; [lra|].
  specialize (IH (fun x w K => H x w (or_intror K))).
  specialize (H x w (or_introl eq_refl)).
  destruct (P x), (P' x); cbn in *; try discriminate; lra.
Qed.

Lemma weight_where_false P zw :
  (forall x w, In (x, w) zw -> P x = false) -> weight_where P zw == 0.
Proof.
  induction zw as [|[x w] r IH]; intro H; cbn; [lra|].
  rewrite (H x w) by (left; auto). apply IH. intros; eapply H; right; eauto.
Qed.

Lemma weight_where_pos P zw x w :
  positive_weights zw -> In (x, w) zw -> P x = true -> 0 < weight_where P zw.
Proof.
  intros Hp. assert (N : forall l, (forall x w, In (x, w) l -> 0 < w) -> 0 <= weight_where P l).
  { induction l as [|[y v] r IH]; intro H; cbn; [lra|].
    assert (0 < v) by (eapply H; left; eauto).
    assert (0 <= weight_where P r) by (apply IH; intros; eapply H; right; eauto).
    destruct (P y); lra. }
  revert Hp. unfold positive_weights. induction zw as [|[y v] r IH]; intros Hp Hin HP; [destruct Hin|].
  assert (0 < v) by (eapply Hp; left; eauto).
  assert (0 <= weight_where P r) by (apply N; intros; eapply Hp; right; eauto).
  destruct Hin as [E|Hin].
  - injection E as -> ->. cbn. rewrite HP. lra.
  - assert (0 < weight_where P r) by (apply IH; auto; intros; eapply Hp; right; eauto).
    cbn. destruct (P y); lra.
Qed.

Lemma sum_groups zw l : StrictSorted l ->
  Qsum (map (group_weight zw) l) == weight_where (fun x => existsb (feq x) l) zw.
Proof.
  induction 1 as [|a l Ha Hlt Hs IH].
  - cbn. symmetry. apply weight_where_false. auto.
  - cbn. fold (Qsum (map (group_weight zw) l)). rewrite IH, group_weight_where.
    apply weight_where_disjoint. intros x w _.
    destruct (feq x a) eqn:E; auto. cbn.
    destruct (existsb (feq x) l) eqn:E2; auto.
    apply existsb_exists in E2. destruct E2 as (y & Hy & E2).
    specialize (Hlt y Hy). apply flt_not_eq in Hlt.
    rewrite <- Hlt. symmetry. eapply feq_trans; [rewrite feq_sym; exact E|exact E2].
Qed.

Lemma firstn_sorted n l : StrictSorted l -> StrictSorted (firstn n l).
Proof.
  intro H. revert n. induction H as [|a l Ha Hlt Hs IH]; intros [|n]; cbn; try constructor; auto.
  intros x Hx. apply Hlt. rewrite <- (firstn_skipn n l). apply in_or_app. auto.
Qed.

Lemma existsb_firstn l i z x :
  StrictSorted l -> nth_error l i = Some z -> (exists y, In y l /\ feq x y = true) ->
  existsb (feq x) (firstn (S i) l) = fle x z.
Proof.
  intro H. revert i. induction H as [|a l Ha Hlt Hs IH]; intros i Hz Hx.
  - destruct i; discriminate.
  - destruct Hx as (y & Hy & E).
    destruct i as [|i].
    + cbn in Hz. injection Hz as ->. cbn. rewrite orb_false_r.
      destruct Hy as [->|Hy].
      * rewrite E. apply feq_iff in E. destruct E as [E _]. auto.
      * specialize (Hlt y Hy). rewrite feq_sym in E.
        assert (L : flt z x = true) by (eapply flt_le_trans; [exact Hlt|]; apply feq_iff in E; tauto).
        rewrite feq_sym, (flt_not_eq _ _ L). apply flt_iff in L. destruct L as (_ & _ & L). auto.
    + cbn [nth_error] in Hz.
      change (firstn (S (S i)) (a :: l)) with (a :: firstn (S i) l). cbn [existsb].
      destruct Hy as [->|Hy].
      * rewrite E. cbn [orb]. symmetry. apply feq_iff in E. destruct E as [E _].
        eapply fle_trans; [exact E|]. apply flt_le. apply Hlt. eapply nth_error_In; eauto.
      * rewrite (IH i Hz) by (exists y; auto).
        destruct (feq x a) eqn:E3; auto. cbn [orb].
        specialize (Hlt y Hy). apply flt_not_eq in Hlt.
        rewrite feq_sym in E3. rewrite (feq_trans a x y E3 E) in Hlt. discriminate.
Qed.

Lemma cumsum_from_nth l : forall acc i c,
  nth_error (cumsum_from acc l) i = Some c -> c == acc + Qsum (firstn (S i) l).
Proof.
  induction l as [|w r IH]; intros acc i c H; [destruct i; discriminate|].
  destruct i as [|i].
  - cbn in *. injection H as <-. lra.
  - cbn [cumsum_from nth_error] in H. apply IH in H. rewrite H.
    change (firstn (S (S i)) (w :: r)) with (w :: firstn (S i) r).
    change (Qsum (w :: firstn (S i) r)) with (w + Qsum (firstn (S i) r)). lra.
Qed.

Lemma cumsum_from_length acc l : length (cumsum_from acc l) = length l.
Proof. revert acc. induction l; intro acc; cbn; auto. Qed.

Lemma group_weight_pos zw k : positive_weights zw -> In k (z_unique zw) -> 0 < group_weight zw k.
Proof.
  intros Hp Hk. rewrite group_weight_where.
  destruct (z_unique_in _ _ Hk) as [w Hw]. apply (weight_where_pos _ zw k w); auto.
  apply feq_refl. eapply StrictSorted_no_nan; [apply z_unique_sorted|exact Hk].
Qed.

Lemma filter_true {A} (f : A -> bool) l : (forall x, In x l -> f x = true) -> filter f l = l.
Proof.
  induction l as [|a r IH]; intro H; cbn; auto. rewrite (H a) by (left; auto).
  f_equal. apply IH. intros; apply H; right; auto.
Qed.

(** A weaker condition than positive weights: no value has total weight zero. *)
Definition no_zero_group (zw : list (fnum * Q)) : Prop :=
  forall k, In k (z_unique zw) -> ~ group_weight zw k == 0.

Lemma positive_no_zero zw : positive_weights zw -> no_zero_group zw.
Proof. intros Hp k Hk E. pose proof (group_weight_pos zw k Hp Hk). lra. Qed.

Lemma group_weights_full zw : no_zero_group zw ->
  group_weights zw = map (group_weight zw) (z_unique zw).
Proof.
  intro Hp. unfold group_weights. apply filter_true. intros x Hx.
  apply in_map_iff in Hx. destruct Hx as (k & <- & Hk).
  apply negb_true_iff. destruct (Qeq_bool _ _) eqn:E; auto.
  apply Qeq_bool_eq in E. destruct (Hp k Hk E).
Qed.

Lemma cdf_law zw : no_zero_group zw -> is_ecdf zw (z_unique zw) (cdf_values zw).
Proof.
  intro Hp. split; [apply StrictSorted_sorted_array, z_unique_sorted|].
  split; [apply StrictSorted_increasing, z_unique_sorted|].
  split; [apply z_unique_occurs|].
  unfold cdf_values, cumsum. rewrite (group_weights_full zw Hp). split.
  - rewrite map_length, cumsum_from_length, map_length. reflexivity.
  - intros i z c Hz Hc. rewrite nth_error_map in Hc.
    destruct (nth_error (cumsum_from 0 (map (group_weight zw) (z_unique zw))) i) as [s|] eqn:E; [|discriminate].
    cbn in Hc. injection Hc as <-. rewrite cdf_wsum_total.
    apply cumsum_from_nth in E. rewrite E. rewrite firstn_map.
    rewrite (sum_groups zw _ (firstn_sorted _ _ (z_unique_sorted zw))).
    unfold weight_upto.
    rewrite (weight_where_ext (fun x => existsb (feq x) (firstn (S i) (z_unique zw))) (fun x => fle x z) zw).
    { unfold Qdiv. rewrite Qplus_0_l. reflexivity. }
    intros x w Hx. destruct (isnan x) eqn:En.
    + destruct x; try discriminate. cbn [fle].
      destruct (existsb (feq NaN) (firstn (S i) (z_unique zw))) eqn:E2; auto.
      apply existsb_exists in E2. destruct E2 as (y & _ & E2). destruct y; discriminate.
    + apply existsb_firstn; auto using z_unique_sorted.
      assert (O : occurs x (map fst zw)).
      { exists x. split; [apply in_map_iff; exists (x, w); auto|]. apply feq_refl. intros ->; discriminate. }
      apply z_unique_occurs in O. destruct O as (y & Hy & E2). exists y. split; auto. rewrite feq_sym; auto.
Qed.

Lemma weight_where_le P P' zw :
  positive_weights zw -> (forall x, P x = true -> P' x = true) ->
  weight_where P zw <= weight_where P' zw.
Proof.
  intros Hp Hi. unfold positive_weights in Hp. induction zw as [|[x w] r IH]; cbn; [lra|].
  assert (0 < w) by (eapply Hp; left; eauto).
  assert (weight_where P r <= weight_where P' r) by (apply IH; intros; eapply Hp; right; eauto).
  destruct (P x) eqn:E; [rewrite (Hi x E); lra|]. destruct (P' x); lra.
Qed.

Lemma Qdiv_lt a b c : 0 < c -> a < b -> a / c < b / c.
Proof.
  intros Hc H. unfold Qdiv. apply Qmult_lt_compat_r; auto. apply Qinv_lt_0_compat; auto.
Qed.

(** Any empirical distribution of positively weighted samples is strictly
    increasing, lies in (0,1] and ends at 1. *)
Lemma ecdf_increasing zw zs cs :
  positive_weights zw -> is_ecdf zw zs cs -> increasingQ cs.
Proof.
  intros Hp (Hnn & Hs & Ho & Hl & Hc) i j a b Hij Ha Hb.
  assert (Li : (i < length zs)%nat) by (rewrite <- Hl; apply nth_error_Some; congruence).
  assert (Lj : (j < length zs)%nat) by (rewrite <- Hl; apply nth_error_Some; congruence).
  destruct (nth_error zs i) as [zi|] eqn:Ei; [|apply nth_error_None in Ei; lia].
  destruct (nth_error zs j) as [zj|] eqn:Ej; [|apply nth_error_None in Ej; lia].
  rewrite (Hc i zi a Ei Ha), (Hc j zj b Ej Hb).
  pose proof (Hs i j zi zj Hij Ei Ej) as L.
  assert (O : occurs zj (map fst zw)).
  { apply Ho. exists zj. split; [eapply nth_error_In; eauto|]. apply feq_refl. apply flt_not_nan in L. tauto. }
  destruct O as (x & Hx & E). apply in_map_iff in Hx. destruct Hx as ([x' w] & Ex & Hx). cbn in Ex. subst x'.
  pose proof (feq_not_nan _ _ E) as [Nx _].
  apply Qdiv_lt.
  - apply (weight_where_pos _ zw x w); auto. destruct x; auto; congruence.
  - unfold weight_upto.
    assert (P : weight_where (fun y => fle y zi) zw + weight_where (fun y => feq y zj) zw
                <= weight_where (fun y => fle y zj) zw).
    { rewrite weight_where_disjoint.
      - apply weight_where_le; auto. intros y Hy. apply orb_prop in Hy. destruct Hy as [Hy|Hy].
        + eapply fle_trans; [exact Hy|]. apply flt_le; auto.
        + apply feq_iff in Hy; tauto.
      - intros y v _. destruct (fle y zi) eqn:E1, (feq y zj) eqn:E2; auto.
        pose proof (fle_lt_trans _ _ _ E1 L) as L2. apply flt_not_eq in L2. congruence. }
    pose proof (weight_where_pos (fun y => feq y zj) zw x w Hp Hx E). lra.
Qed.

Lemma ecdf_last zw zs cs z c :
  positive_weights zw -> is_ecdf zw zs cs ->
  nth_error zs (length zs - 1) = Some z -> nth_error cs (length zs - 1) = Some c -> c == 1.
Proof.
  intros Hp (Hnn & Hs & Ho & Hl & Hc) Hz Hn. rewrite (Hc _ _ _ Hz Hn).
  assert (E : weight_upto zw z == weight_total zw).
  { apply weight_where_ext. intros x w Hx. destruct (isnan x) eqn:En.
    - destruct x; try discriminate. reflexivity.
    - cbn. assert (O : occurs x zs).
      { apply Ho. exists x. split; [apply in_map_iff; exists (x, w); auto|]. apply feq_refl. intros ->; discriminate. }
      destruct O as (y & Hy & E). apply In_nth_error in Hy. destruct Hy as (i & Hi).
      assert (i < length zs)%nat by (apply nth_error_Some; congruence).
      apply feq_iff in E. destruct E as [_ E]. eapply fle_trans; [exact E|].
      destruct (Nat.eq_dec i (length zs - 1)) as [->|Hne].
      + replace y with z by congruence. apply fle_refl. intros ->.
        rewrite Forall_forall in Hnn. apply (Hnn NaN); auto. eapply nth_error_In; eauto.
      + apply flt_le. apply (Hs i (length zs - 1)%nat); auto. lia. }
  rewrite E. unfold Qdiv. apply Qmult_inv_r.
  assert (O : occurs z zs).
  { exists z. split; [eapply nth_error_In; eauto|]. apply feq_refl.
    rewrite Forall_forall in Hnn. apply Hnn. eapply nth_error_In; eauto. }
  apply Ho in O. destruct O as (x & Hx & Ex). apply in_map_iff in Hx. destruct Hx as ([x' w] & Exx & Hx).
  cbn in Exx. subst x'. apply feq_not_nan in Ex.
  pose proof (weight_where_pos (fun y => negb (isnan y)) zw x w Hp Hx) as P.
  intro K. unfold weight_total in K. rewrite K in P. apply (Qlt_irrefl 0). apply P. destruct x; auto; tauto.
Qed.

(** ** Independence of the order of the samples *)
Lemma weight_where_perm P zw zw' : Permutation zw zw' -> weight_where P zw == weight_where P zw'.
Proof.
  induction 1 as [|[x w] l l' H IH|[x w] [y v] l|l1 l2 l3 H1 IH1 H2 IH2]; cbn.
  - lra.
  - destruct (P x); lra.
  - destruct (P x), (P y); lra.
  - lra.
Qed.

Lemma sorted_same_values l l' :
  StrictSorted l -> StrictSorted l' -> (forall v, occurs v l <-> occurs v l') ->
  Forall2 (fun a b => feq a b = true) l l'.
Proof.
  intro H. revert l'. induction H as [|a l Ha Hlt Hs IH]; intros l' H' E.
  - destruct H' as [|b l' Hb Hlt' Hs']; [constructor|].
    assert (O : occurs b (b :: l')) by (exists b; split; [left; auto|apply feq_refl; auto]).
    apply E in O. destruct O as (x & [] & _).
  - destruct H' as [|b l' Hb Hlt' Hs'].
    { assert (O : occurs a (a :: l)) by (exists a; split; [left; auto|apply feq_refl; auto]).
      apply E in O. destruct O as (x & [] & _). }
    assert (Eab : feq a b = true).
    { assert (O1 : occurs a (b :: l')) by (apply E; exists a; split; [left; auto|apply feq_refl; auto]).
      assert (O2 : occurs b (a :: l)) by (apply E; exists b; split; [left; auto|apply feq_refl; auto]).
      destruct O1 as (x & [->|Hx] & E1); [rewrite feq_sym; auto|].
      destruct O2 as (y & [->|Hy] & E2); auto.
      specialize (Hlt' x Hx). specialize (Hlt y Hy).
      apply feq_iff in E1, E2.
      assert (L1 : flt b a = true) by (eapply flt_le_trans; [exact Hlt'|tauto]).
      assert (L2 : flt a b = true) by (eapply flt_le_trans; [exact Hlt|tauto]).
      pose proof (flt_trans _ _ _ L1 L2) as L. rewrite flt_irrefl in L. discriminate. }
    constructor; auto. apply IH; auto.
    intro v. specialize (E v). unfold occurs in *. cbn in E.
    assert (Q1 : forall m c, (forall x, In x m -> flt c x = true) ->
                 forall x, In x m -> feq x v = true -> feq c v = false).
    { intros m c Hm x Hx Ex. specialize (Hm x Hx). apply feq_iff in Ex.
      apply flt_not_eq. eapply flt_le_trans; [exact Hm|tauto]. }
    assert (V : feq a v = feq b v).
    { destruct (feq a v) eqn:E1, (feq b v) eqn:E2; auto.
      - rewrite <- E2. symmetry. eapply feq_trans; [rewrite feq_sym; exact Eab|exact E1].
      - rewrite <- E1. eapply feq_trans; [exact Eab|exact E2]. }
    split; intros (x & Hx & Ex).
    + destruct E as [E _]. destruct E as (y & [->|Hy] & Ey); [exists x; auto| |exists y; auto].
      pose proof (Q1 l a Hlt x Hx Ex). congruence.
    + destruct E as [_ E]. destruct E as (y & [->|Hy] & Ey); [exists x; auto| |exists y; auto].
      pose proof (Q1 l' b Hlt' x Hx Ex). congruence.
Qed.

Lemma increasing_StrictSorted l : Forall (fun v => v <> NaN) l -> increasing l -> StrictSorted l.
Proof.
  induction 1 as [|a l Ha Hl IH]; intro Hi; constructor; auto.
  - intros x Hx. apply In_nth_error in Hx. destruct Hx as [j Hj]. apply (Hi 0%nat (S j)); auto. lia.
  - apply IH. intros i j x y Hij Hx Hy. apply (Hi (S i) (S j)); auto. lia.
Qed.

Lemma Forall2_nth_error {A B} (R : A -> B -> Prop) l l' :
  length l = length l' ->
  (forall i a b, nth_error l i = Some a -> nth_error l' i = Some b -> R a b) ->
  Forall2 R l l'.
Proof.
  revert l'. induction l as [|a l IH]; intros [|b l'] Hl H; try discriminate; constructor.
  - apply (H 0%nat); auto.
  - apply IH; [cbn in Hl; lia|]. intros i x y Hx Hy. apply (H (S i)); auto.
Qed.

Lemma Forall2_len {A B} (R : A -> B -> Prop) l l' : Forall2 R l l' -> length l = length l'.
Proof. induction 1; cbn; auto. Qed.

Lemma Forall2_nth {A B} (R : A -> B -> Prop) l l' i a b :
  Forall2 R l l' -> nth_error l i = Some a -> nth_error l' i = Some b -> R a b.
Proof.
  intro H. revert i. induction H; intros [|i] Ha Hb; cbn in *; try discriminate; [congruence|eauto].
Qed.

Lemma weight_upto_feq zw v v' : feq v v' = true -> weight_upto zw v == weight_upto zw v'.
Proof. intro E. apply weight_where_ext. intros x w _. apply fle_feq_r; auto. Qed.

Lemma ecdf_unique zw zw' zs cs zs' cs' :
  (forall P, weight_where P zw == weight_where P zw') ->
  (forall v, occurs v (map fst zw) <-> occurs v (map fst zw')) ->
  is_ecdf zw zs cs -> is_ecdf zw' zs' cs' ->
  Forall2 (fun a b => feq a b = true) zs zs' /\ Forall2 Qeq cs cs'.
Proof.
  intros HP HO (Hn & Hs & Ho & Hl & Hc) (Hn' & Hs' & Ho' & Hl' & Hc').
  assert (F : Forall2 (fun a b => feq a b = true) zs zs').
  { apply sorted_same_values; auto using increasing_StrictSorted.
    intro v. rewrite Ho, Ho'. apply HO. }
  split; auto. pose proof (Forall2_len _ _ _ F) as L.
  apply Forall2_nth_error; [congruence|].
  intros i a b Ha Hb.
  assert (i < length cs)%nat by (apply nth_error_Some; congruence).
  destruct (nth_error zs i) as [z|] eqn:Ez; [|apply nth_error_None in Ez; lia].
  destruct (nth_error zs' i) as [z'|] eqn:Ez'; [|apply nth_error_None in Ez'; lia].
  rewrite (Hc _ _ _ Ez Ha), (Hc' _ _ _ Ez' Hb).
  pose proof (Forall2_nth _ _ _ _ _ _ F Ez Ez') as E. cbn in E.
  rewrite (weight_upto_feq zw z z' E). unfold weight_upto, weight_total. rewrite !HP. reflexivity.
Qed.

Lemma combine_fst_snd {A B} (l : list (A * B)) : combine (map fst l) (map snd l) = l.
Proof. induction l as [|[a b] r IH]; cbn; [|rewrite IH]; auto. Qed.

Lemma calculate_cdf_zw zw :
  calculate_cdf (map fst zw) (map snd zw) =
  CdfOk (z_unique zw) (cdf_values zw) (cdf_wsum zw) (length (filter isnan (map fst zw))).
Proof.
  unfold calculate_cdf. rewrite !map_length, Nat.eqb_refl, combine_fst_snd. reflexivity.
Qed.

Lemma calculate_cdf_spec zw zs cs tot nn :
  positive_weights zw -> calculate_cdf (map fst zw) (map snd zw) = CdfOk zs cs tot nn ->
  is_ecdf zw zs cs /\ tot == weight_total zw /\ nn = length (filter isnan (map fst zw)).
Proof.
  rewrite calculate_cdf_zw. intros Hp H. injection H as <- <- <- <-.
  split; [apply cdf_law; apply positive_no_zero; auto|]. split; auto. apply cdf_wsum_total.
Qed.

Lemma perm_occurs (zw zw' : list sample) v :
  Permutation zw zw' -> occurs v (map fst zw) -> occurs v (map fst zw').
Proof.
  intros H (x & Hx & E). exists x. split; auto. eapply Permutation_in; [|exact Hx].
  apply Permutation_map; auto.
Qed.

Lemma calculate_cdf_perm zw zw' zs cs tot nn zs' cs' tot' nn' :
  positive_weights zw -> Permutation zw zw' ->
  calculate_cdf (map fst zw) (map snd zw) = CdfOk zs cs tot nn ->
  calculate_cdf (map fst zw') (map snd zw') = CdfOk zs' cs' tot' nn' ->
  Forall2 (fun a b => feq a b = true) zs zs' /\ Forall2 Qeq cs cs' /\ tot == tot' /\ nn = nn'.
Proof.
  intros Hp Hperm H H'.
  assert (Hp' : positive_weights zw').
  { intros x w Hx. apply (Hp x w). eapply Permutation_in; [apply Permutation_sym; exact Hperm|exact Hx]. }
  destruct (calculate_cdf_spec _ _ _ _ _ Hp H) as (E1 & T1 & N1).
  destruct (calculate_cdf_spec _ _ _ _ _ Hp' H') as (E2 & T2 & N2).
  destruct (ecdf_unique zw zw' zs cs zs' cs') as [F1 F2]; auto.
  - intro P. apply weight_where_perm; auto.
  - intro v. split; apply perm_occurs; auto using Permutation_sym.
  - repeat split; auto.
    + rewrite T1, T2. apply weight_where_perm; auto.
    + subst nn nn'. assert (PL : forall l l' : list fnum, Permutation l l' -> length (filter isnan l) = length (filter isnan l')).
      { clear. induction 1; cbn; repeat match goal with |- context[isnan ?x] => destruct (isnan x) end; cbn; congruence. }
      apply PL. apply Permutation_map; auto.
Qed.
