(** One categorical column under a recoding of its categories. *)
From Coq Require Import ZArith NArith QArith Qabs Qround List Bool Lia Lqa.
From Verif.Proofs Require Import FnumOrder BinarySearchFacts EcdfFacts FitFacts FlagFacts TransformFacts FrameFacts PipeFacts.
From Verif.Model Require Import Num BinarySearch Flags Ecdf BinTransform Frames.
From Verif.Spec Require Import SearchSpec BinningSpec FrameSpec PipeSpec PredictSpec RelabelSpec RecodeSpec.
Import ListNotations.
Local Open Scope Z_scope.

(** [U] lists the categories of [t] in increasing order. *)
Record codes (t : list fnum) (U : list Q) : Prop := {
  co_sorted : forall i j a b, (i < j)%nat -> nth_error U i = Some a -> nth_error U j = Some b -> (a < b)%Q;
  co_members : forall q, (exists a, In a U /\ (a == q)%Q) <-> category t q }.
(** [g] gives the number of the category. *)
Record numbering (t : list fnum) (U : list Q) (g : fnum -> fnum) : Prop := {
  nu_known : forall i a q, nth_error U i = Some a -> (a == q)%Q -> g (Fin q) = Fin (inject_Z (Z.of_nat i));
  nu_new : forall q, new_category t q -> g (Fin q) = MISSING;
  nu_missing : forall v, isfinite v = false -> g v = MISSING;
  nu_whole : forall v, exists z, g v = Fin (inject_Z z) }.

Lemma codes_distinct t U i j a b : codes t U -> nth_error U i = Some a -> nth_error U j = Some b -> (a == b)%Q -> i = j.
Proof.
  intros C Ha Hb E. destruct (Nat.lt_trichotomy i j) as [L|[L|L]]; auto; exfalso.
  - pose proof (co_sorted _ _ C i j a b L Ha Hb). lra.
  - pose proof (co_sorted _ _ C j i b a L Hb Ha). lra.
Qed.

Lemma z_unique_codes t ws : codes_or_missing t -> length ws = length t ->
  exists U, z_unique (combine t ws) = map Fin U /\ codes t U.
Proof.
  intros Hf L.
  assert (Ef : map fst (combine t ws) = t) by (clear Hf; revert ws L; induction t; intros [|w ws] L; cbn in *; try discriminate; f_equal; auto).
  set (zw := combine t ws) in *.
  assert (Fn : finite_or_nan zw).
  { intros v w I. assert (I' : In v t) by (rewrite <- Ef; change v with (fst (v, w)); apply in_map; auto).
    destruct (Hf v I') as [-> |[q ->]]; [right|left]; reflexivity. }
  pose proof (z_unique_finite zw Fn) as F. pose proof (StrictSorted_increasing _ (z_unique_sorted zw)) as Inc.
  pose proof (fun v => z_unique_occurs zw v) as Oc. rewrite Ef in Oc.
  assert (E : exists U, z_unique zw = map Fin U).
  { clear -F. induction F as [|v l Hv _ [U E]]; [exists []; auto|]. destruct v as [q| | |]; try discriminate.
    exists (q :: U). cbn. rewrite E. auto. }
  destruct E as [U E]. exists U. split; auto. rewrite E in Inc, Oc. constructor.
  - intros i j a b Hij Ha Hb. apply flt_Fin. apply (Inc i j); auto; rewrite nth_error_map; [rewrite Ha|rewrite Hb]; auto.
  - intro q. specialize (Oc (Fin q)). unfold occurs in Oc. split.
    + intros (a & Ia & Ea). destruct (proj1 Oc) as (x & Ix & Ex).
      { exists (Fin a). split; [apply in_map; auto|]. apply feq_Fin. lra. }
      destruct (Hf x Ix) as [-> |[r ->]]; [discriminate|]. exists r. split; auto. apply feq_Fin in Ex. lra.
    + intros (r & Ir & Er). destruct (proj2 Oc) as (x & Ix & Ex).
      { exists (Fin r). split; auto. apply feq_Fin. lra. }
      apply in_map_iff in Ix. destruct Ix as (a & <- & Ia). exists a. split; auto. apply feq_Fin in Ex. lra.
Qed.

Lemma discrete_numbering p n tol t : check_flags_consistency p = FlagsOk -> is_continuous_set p = false -> has_magic_missing_set p = false ->
  2 <= n -> codes_or_missing t ->
  let ft := fit_column p n (1 # 1000000000) tol (combine t (map (fun _ => 1%Q) t)) in
  fit_ok ft /\ exists U g, codes t U /\ numbering t U g /\ forall xs, transform_column p ft xs = Some (map g xs).
Proof.
  intros Hc Hcont Hm Hn Hf. cbv zeta. set (ws := map (fun _ => 1%Q) t). set (zw := combine t ws).
  destruct (z_unique_codes t ws Hf) as (U & EU & CU). { unfold ws. rewrite map_length. auto. } fold zw in EU.
  assert (Pw : positive_weights zw).
  { intros x w I. apply in_combine_r in I. unfold ws in I. apply in_map_iff in I. destruct I as (? & <- & _). lra. }
  assert (Ef : map fst zw = t).
  { unfold zw, ws. clear. induction t; cbn; f_equal; auto. }
  assert (Fn : finite_or_nan zw).
  { intros v w I. assert (I' : In v t) by (rewrite <- Ef; change v with (fst (v, w)); apply in_map; auto).
    destruct (Hf v I') as [-> |[q ->]]; [right|left]; reflexivity. }
  destruct U as [|u0 us].
  { assert (E : fit_column p n (1 # 1000000000) tol zw = FitNone (1 # 1000000000)) by (unfold fit_column; rewrite EU; reflexivity).
    rewrite E. split; [exact I|]. exists [], (fun _ => MISSING). split; [exact CU|]. split; [|reflexivity].
    constructor; auto; [intros [|i] a q H; discriminate|]. intros _. exists (-1). reflexivity. }
  destruct (discrete_fit p n (1 # 1000000000) tol zw Hc Hcont Hn Pw) as (e & bb & cc & Efit & Etl & Hne & Ee & Hhd).
  { assert (I : In (Fin u0) (z_unique zw)) by (rewrite EU; left; auto). destruct (z_unique_in _ _ I) as [w Iw]. exists (Fin u0), w. split; auto. discriminate. }
  rewrite Efit. split; [exact I|].
  exists (u0 :: us), (tvalue p e (tl bb)). split; [exact CU|].
  destruct (fitted_transform p n (1 # 1000000000) tol zw e bb cc [] Hc Hn Efit) as [_ Hs].
  split; [|intro xs; apply (fitted_transform p n (1 # 1000000000) tol zw e bb cc xs Hc Hn Efit)].
  assert (Hne' : tl bb <> []) by (rewrite Etl, EU; discriminate).
  assert (Reg : forall q, is_finite_prop p (Fin q) = true) by (intro q; unfold is_finite_prop; rewrite Hm; reflexivity).
  constructor.
  - intros i a q Ha Eq.
    destruct (discrete_training_value p n (1 # 1000000000) tol zw e bb cc [Fin q] [tvalue p e (tl bb) (Fin q)] 0 (Fin q) Hc Hcont Hn Pw Fn) as (r & v & Hv & Ev & Hr); auto.
    + lra.
    + lra.
    + apply (fitted_transform p n (1 # 1000000000) tol zw e bb cc [Fin q] Hc Hn Efit).
    + pose proof (Reg q) as R. apply is_finite_prop_iff in R. exact R.
    + rewrite Ef. destruct (proj1 (co_members _ _ CU q)) as (b & Ib & Eb); [exists a; split; auto; eapply nth_error_In; eauto|].
      exists (Fin b). split; auto. apply feq_Fin. lra.
    + cbn in Hr. injection Hr as Hr. rewrite Hr. do 3 f_equal.
      rewrite Etl, EU, nth_error_map in Hv. destruct (nth_error (u0 :: us) r) as [b|] eqn:Eb; [|discriminate]. injection Hv as <-. apply feq_Fin in Ev.
      apply (codes_distinct t (u0 :: us) r i b a); auto. lra.
  - intros q Hq. unfold tvalue. rewrite Reg, Hcont.
    destruct (disc_value_spec (tl bb) e (Fin q) Hs Hne') as [_ [-> |(i & zi & _ & Hi & Ez & C & E)]].
    { apply fle_Fin. lra. }
    { reflexivity. }
    exfalso. destruct Ez as [_ Ez]. rewrite Etl, EU, nth_error_map in Ez.
    destruct (nth_error (u0 :: us) (Z.to_nat i)) as [a|] eqn:Ea; [|discriminate]. injection Ez as <-.
    destruct (proj1 (co_members _ _ CU a)) as (a' & Ia' & Ea'); [exists a; split; [eapply nth_error_In; eauto|lra]|].
    assert (B : exists m u w, e = Fin ((1 # 1000000000) * m) /\ In u (u0 :: us) /\ In w (u0 :: us) /\ (m <= 1 + (w - u))%Q).
    { rewrite Ee. destruct bb as [|b0 zs]; [congruence|]. cbn [tl hd_error] in *. rewrite Etl, EU in Hhd. cbn [map hd_error] in Hhd. injection Hhd as ->.
      rewrite Etl, EU. destruct (minimal_difference_cases (Fin u0 :: map Fin (u0 :: us))) as [[-> _]|(I & _ & _)].
      - exists 1%Q, u0, u0. split; [reflexivity|]. split; [left; auto|]. split; [left; auto|]. lra.
      - change (Fin u0 :: map Fin (u0 :: us)) with (map Fin (u0 :: u0 :: us)) in *.
        assert (G : forall l d, In d (differences (map Fin l)) -> exists u w, In u l /\ In w l /\ d = Fin (w + - u)).
        { clear. induction l as [|x l IH]; intros d I; [destruct I|]. destruct l as [|y l]; [destruct I|].
          cbn [map differences] in I. destruct I as [<-|I].
          - exists x, y. split; [left; auto|]. split; [right; left; auto|]. reflexivity.
          - destruct (IH d I) as (u & w & Iu & Iw & ->). exists u, w. split; [right; auto|]. split; [right; auto|]. reflexivity. }
        destruct (G _ _ I) as (u & w & Iu & Iw & E1). rewrite E1. exists (w + - u)%Q, u, w. split; [reflexivity|].
        assert (In u (u0 :: us)) by (destruct Iu as [<-|]; [left; auto|auto]).
        assert (In w (u0 :: us)) by (destruct Iw as [<-|]; [left; auto|auto]).
        split; auto. split; auto. lra. }
    destruct B as (m & u & w & -> & Iu & Iw & Bm).
    destruct (proj1 (co_members _ _ CU u)) as (u' & Iu' & Eu'); [exists u; split; [auto|lra]|].
    destruct (proj1 (co_members _ _ CU w)) as (w' & Iw' & Ew'); [exists w; split; [auto|lra]|].
    specialize (Hq a' u' w' Ia' Iu' Iw').
    cbn [check_equal fsub fneg fadd fabs] in C. apply fle_Fin in C.
    assert (Qabs (a' - q) <= (1 # 1000000000) * m)%Q.
    { apply Qabs_case; intro; destruct (Qle_bool 0 (a + - q)) eqn:E0; try (apply Qle_bool_iff in E0); try lra.
      - assert (~ (0 <= a + - q)%Q) by (intro K; apply Qle_bool_iff in K; congruence). lra. }
    lra.
  - intros v Hv. unfold tvalue. assert (E : is_finite_prop p v = false) by (unfold is_finite_prop; rewrite Hm; auto). rewrite E. reflexivity.
  - intro v. unfold tvalue. rewrite Hcont. destruct (is_finite_prop p v) eqn:E; [|exists (-1); reflexivity].
    destruct v as [q| | |]; try (unfold is_finite_prop in E; rewrite Hm in E; discriminate).
    destruct (disc_value_spec (tl bb) e (Fin q) Hs Hne') as [_ [-> |(i & zi & _ & Hi & Ez & C & ->)]].
    { apply fle_Fin. lra. } { exists (-1). reflexivity. } eauto.
Qed.

(** *** The permutation of the category numbers. *)
Fixpoint idx {A} (P : A -> bool) (l : list A) : nat := match l with [] => 0%nat | x :: r => if P x then 0%nat else S (idx P r) end.
Lemma idx_found {A} (P : A -> bool) l : (exists x, In x l /\ P x = true) -> exists v, nth_error l (idx P l) = Some v /\ P v = true.
Proof.
  induction l as [|x l IH]; intros (y & I & E); [destruct I|]. cbn [idx]. destruct (P x) eqn:Ex; [exists x; auto|].
  destruct I as [<-|I]; [congruence|]. destruct IH as (v & Hv & Ev); [eauto|]. exists v. auto.
Qed.

Section Perm.
Variable f : Q -> Q.
Hypothesis inj : one_to_one f.
Variables (t : list fnum) (U U' : list Q).
Hypothesis CU : codes t U.
Hypothesis CU' : codes (map (on_values f) t) U'.
Let fwd (i : nat) : nat := idx (fun v => Qeq_bool v (f (nth i U 0%Q))) U'.
Let bwd (i : nat) : nat := idx (fun v => Qeq_bool (f v) (nth i U' 0%Q)) U.

Lemma category_moved q : category (map (on_values f) t) q <-> exists r, category t r /\ (f r == q)%Q.
Proof.
  split.
  - intros (r & I & E). apply in_map_iff in I. destruct I as (v & Ev & I). destruct v as [s| | |]; try discriminate. cbn in Ev. injection Ev as <-.
    exists s. split; auto. exists s. split; auto. lra.
  - intros (r & (s & I & E) & Er). exists (f s). split; [apply in_map_iff; exists (Fin s); auto|]. apply inj in E. lra.
Qed.
Lemma fwd_spec i a : nth_error U i = Some a -> exists b, nth_error U' (fwd i) = Some b /\ (b == f a)%Q.
Proof.
  intro Ha. unfold fwd. rewrite (nth_error_nth _ _ 0%Q Ha).
  destruct (idx_found (fun v => Qeq_bool v (f a)) U') as (v & Hv & Ev).
  - destruct (proj2 (co_members _ _ CU' (f a))) as (b & Ib & Eb).
    + apply category_moved. exists a. split; [|lra]. apply (co_members _ _ CU). exists a. split; [eapply nth_error_In; eauto|lra].
    + exists b. split; auto. apply Qeq_bool_iff. auto.
  - exists v. split; auto. apply Qeq_bool_iff. auto.
Qed.
Lemma bwd_spec i b : nth_error U' i = Some b -> exists a, nth_error U (bwd i) = Some a /\ (f a == b)%Q.
Proof.
  intro Hb. unfold bwd. rewrite (nth_error_nth _ _ 0%Q Hb).
  destruct (idx_found (fun v => Qeq_bool (f v) b) U) as (v & Hv & Ev).
  - destruct (proj1 (co_members _ _ CU' b)) as (r & Ir & Er); [exists b; split; [eapply nth_error_In; eauto|lra]|].
    destruct (proj1 (category_moved b)) as (s & Cs & Es); [exists r; auto|].
    destruct (proj2 (co_members _ _ CU s) Cs) as (a & Ia & Ea). exists a. split; auto. apply Qeq_bool_iff. apply inj in Ea. lra.
  - exists v. split; auto. apply Qeq_bool_iff. auto.
Qed.
Lemma in_range {A} (l : list A) i : (i < length l)%nat -> exists a, nth_error l i = Some a.
Proof. intro H. destruct (nth_error l i) eqn:E; eauto. apply nth_error_None in E. lia. Qed.
Lemma range_of {A} (l : list A) i a : nth_error l i = Some a -> (i < length l)%nat.
Proof. intro H. apply nth_error_Some. congruence. Qed.
Lemma fwd_bwd i : (i < length U')%nat -> (bwd i < length U)%nat /\ fwd (bwd i) = i.
Proof.
  intro H. destruct (in_range U' i H) as [b Hb]. destruct (bwd_spec i b Hb) as (a & Ha & Ea). split; [eapply range_of; eauto|].
  destruct (fwd_spec _ _ Ha) as (b' & Hb' & Eb'). apply (codes_distinct _ U' _ _ b' b CU'); auto. lra.
Qed.
Lemma bwd_fwd i : (i < length U)%nat -> (fwd i < length U')%nat /\ bwd (fwd i) = i.
Proof.
  intro H. destruct (in_range U i H) as [a Ha]. destruct (fwd_spec i a Ha) as (b & Hb & Eb). split; [eapply range_of; eauto|].
  destruct (bwd_spec _ _ Hb) as (a' & Ha' & Ea'). apply (codes_distinct _ U _ _ a' a CU); auto. apply inj. lra.
Qed.
Lemma one_size (F G : nat -> nat) m n : (forall i, (i < m)%nat -> (F i < n)%nat /\ G (F i) = i) -> (m <= n)%nat.
Proof.
  intro H. rewrite <- (seq_length m 0), <- (seq_length n 0), <- (map_length F (seq 0 m)). apply NoDup_incl_length.
  - apply (NoDup_map_inv G). rewrite map_map. rewrite (map_ext_in _ (fun i => i)); [rewrite map_id; apply seq_NoDup|].
    intros i I. apply in_seq in I. apply H. lia.
  - intros j I. apply in_map_iff in I. destruct I as (i & <- & I). apply in_seq in I. apply in_seq. destruct (H i); lia.
Qed.
Lemma same_size : length U' = length U.
Proof. apply Nat.le_antisymm; [apply (one_size bwd fwd), fwd_bwd|apply (one_size fwd bwd), bwd_fwd]. Qed.

Definition code_perm (z : Z) : Z := if (0 <=? z) && (z <? Z.of_nat (length U)) then Z.of_nat (fwd (Z.to_nat z)) else z.
Definition code_inv (z : Z) : Z := Z.of_nat (bwd (Z.to_nat z)).
Lemma code_perm_at i : (i < length U)%nat -> code_perm (Z.of_nat i) = Z.of_nat (fwd i).
Proof. intro H. unfold code_perm. rewrite (proj2 (Z.leb_le _ _)), (proj2 (Z.ltb_lt _ _)), Nat2Z.id by lia. reflexivity. Qed.
Lemma code_perm_out z : ~ 0 <= z < Z.of_nat (length U) -> code_perm z = z.
Proof. intro H. unfold code_perm. destruct (Z.leb_spec 0 z), (Z.ltb_spec z (Z.of_nat (length U))); cbn; auto. lia. Qed.
Lemma code_perm_permutes : permutes (Z.of_nat (length U)) code_perm.
Proof.
  pose proof same_size as S. split; [|split].
  - intros z H. rewrite <- (Z2Nat.id z) by lia. rewrite code_perm_at by lia. destruct (bwd_fwd (Z.to_nat z)); lia.
  - apply code_perm_out.
  - exists code_inv. intros z H. unfold code_inv. destruct (fwd_bwd (Z.to_nat z)) as [B1 B2]; [lia|].
    split; [lia|]. split; [rewrite code_perm_at by auto; rewrite B2; lia|].
    rewrite <- (Z2Nat.id z) at 1 by lia. rewrite code_perm_at by lia. rewrite Nat2Z.id. destruct (bwd_fwd (Z.to_nat z)) as [B3 B4]; [lia|]. rewrite B4. lia.
Qed.
Lemma code_perm_first : keeps_first f t -> code_perm 0 = 0.
Proof.
  intro K. destruct (Nat.eq_dec (length U) 0) as [E|E]; [apply code_perm_out; lia|].
  destruct (in_range U 0) as [a Ha]; [lia|]. change 0 with (Z.of_nat 0). rewrite code_perm_at by lia.
  destruct (fwd_spec 0 a Ha) as (b & Hb & Eb). f_equal.
  destruct (fwd 0) as [|j] eqn:Ej; auto. exfalso.
  destruct (in_range U' 0) as [b0 Hb0]. { rewrite same_size. lia. }
  pose proof (co_sorted _ _ CU' 0 (S j) b0 b ltac:(lia) Hb0 Hb) as L.
  destruct (proj1 (co_members _ _ CU' b0)) as (r & Ir & Er); [exists b0; split; [eapply nth_error_In; eauto|lra]|].
  apply in_map_iff in Ir. destruct Ir as (v & Ev & Ir). destruct v as [s| | |]; try discriminate. cbn in Ev. injection Ev as <-.
  destruct (proj1 (co_members _ _ CU a)) as (a' & Ia & Ea); [exists a; split; [eapply nth_error_In; eauto|lra]|].
  specialize (K a' Ia).
  assert (M : forall r, In (Fin r) t -> (a' <= r)%Q).
  { intros r I. destruct (proj2 (co_members _ _ CU r)) as (u & Iu & Eu); [exists r; split; auto; lra|].
    apply In_nth_error in Iu. destruct Iu as [[|i] Hi]; [rewrite Ha in Hi; injection Hi as <-; lra|].
    pose proof (co_sorted _ _ CU 0 (S i) a u ltac:(lia) Ha Hi). lra. }
  specialize (K M s Ir). apply inj in Ea. lra.
Qed.

Variables g g' : fnum -> fnum.
Hypothesis Ng : numbering t U g.
Hypothesis Ng' : numbering (map (on_values f) t) U' g'.

Lemma relabel_int h z : relabel_number h (Fin (inject_Z z)) = Fin (inject_Z (h z)).
Proof. unfold relabel_number. rewrite Qfloor_Z. reflexivity. Qed.
Lemma code_cell v : known_or_new f t v -> g' (on_values f v) = relabel_number code_perm (g v).
Proof.
  assert (Mm : relabel_number code_perm MISSING = MISSING).
  { unfold MISSING. rewrite relabel_int, code_perm_out by lia. reflexivity. }
  intro K. destruct v as [q| | |]; cbn [on_values];
    try (rewrite (nu_missing _ _ _ Ng), (nu_missing _ _ _ Ng'), Mm by reflexivity; reflexivity).
  destruct K as [K|[K1 K2]].
  - destruct (proj2 (co_members _ _ CU q) K) as (a & Ia & Ea). apply In_nth_error in Ia. destruct Ia as [i Hi].
    destruct (fwd_spec i a Hi) as (b & Hb & Eb).
    rewrite (nu_known _ _ _ Ng i a q Hi Ea), relabel_int, code_perm_at by (eapply range_of; eauto).
    apply (nu_known _ _ _ Ng' _ b); auto. apply inj in Ea. lra.
  - rewrite (nu_new _ _ _ Ng q K1), (nu_new _ _ _ Ng' _ K2), Mm. reflexivity.
Qed.
Lemma code_training v : codes_or_missing t -> In v t -> known_or_new f t v.
Proof. intros C I. destruct (C v I) as [-> |[q ->]]; cbn; auto. left. exists q. split; auto. lra. Qed.
Lemma code_range v : codes_or_missing t -> In v t -> g v = MISSING \/ exists z, 0 <= z < Z.of_nat (length U) /\ g v = Fin (inject_Z z).
Proof.
  intros C I. destruct (C v I) as [-> |[q ->]]; [left; apply (nu_missing _ _ _ Ng); reflexivity|]. right.
  destruct (proj2 (co_members _ _ CU q)) as (a & Ia & Ea); [exists q; split; auto; lra|].
  apply In_nth_error in Ia. destruct Ia as [i Hi]. exists (Z.of_nat i). split; [apply range_of in Hi; lia|].
  apply (nu_known _ _ _ Ng i a); auto.
Qed.
Lemma code_occurs z : 0 <= z < Z.of_nat (length U) -> exists q, In (Fin q) t /\ forall r, (r == q)%Q -> g (Fin r) = Fin (inject_Z z).
Proof.
  intro H. destruct (in_range U (Z.to_nat z)) as [a Ha]; [lia|].
  destruct (proj1 (co_members _ _ CU a)) as (q & Iq & Eq); [exists a; split; [eapply nth_error_In; eauto|lra]|].
  exists q. split; auto. intros r Er. rewrite (nu_known _ _ _ Ng _ a r Ha) by lra. rewrite Z2Nat.id by lia. reflexivity.
Qed.
End Perm.

(** What a recoding does to the binning of its column. *)
Record recoding (f : Q -> Q) (t : list fnum) (g g' : fnum -> fnum) (kc : Z) (tau : Z -> Z) : Prop := {
  rc_size : 0 <= kc;
  rc_perm : permutes kc tau;
  rc_cell : forall v, known_or_new f t v -> g' (on_values f v) = relabel_number tau (g v);
  rc_whole : forall v, exists z, g v = Fin (inject_Z z);
  rc_range : forall v, In v t -> g v = MISSING \/ exists z, 0 <= z < kc /\ g v = Fin (inject_Z z);
  rc_occurs : forall z, 0 <= z < kc -> exists q, In (Fin q) t /\ g (Fin q) = Fin (inject_Z z);
  rc_first : keeps_first f t -> tau 0 = 0 }.

Lemma recoded_column p n tol t f : check_flags_consistency p = FlagsOk -> is_continuous_set p = false -> has_magic_missing_set p = false ->
  2 <= n -> codes_or_missing t -> one_to_one f ->
  let ft := fit_column p n (1 # 1000000000) tol (combine t (map (fun _ => 1%Q) t)) in
  let ft' := fit_column p n (1 # 1000000000) tol (combine (map (on_values f) t) (map (fun _ => 1%Q) t)) in
  fit_ok ft /\ fit_ok ft' /\ exists g g' kc tau,
    (forall xs, transform_column p ft xs = Some (map g xs)) /\ (forall xs, transform_column p ft' xs = Some (map g' xs)) /\
    recoding f t g g' kc tau.
Proof.
  intros Hc Hcont Hm Hn Hf Hi. cbv zeta.
  assert (Hf' : codes_or_missing (map (on_values f) t)).
  { intros v I. apply in_map_iff in I. destruct I as (w & <- & I). destruct (Hf w I) as [-> |[q ->]]; cbn; eauto. }
  destruct (discrete_numbering p n tol t Hc Hcont Hm Hn Hf) as (K & U & g & CU & Ng & Tg).
  destruct (discrete_numbering p n tol (map (on_values f) t) Hc Hcont Hm Hn Hf') as (K' & U' & g' & CU' & Ng' & Tg').
  rewrite map_map in K', Tg'. split; [exact K|]. split; [exact K'|].
  exists g, g', (Z.of_nat (length U)), (code_perm f U U'). split; [exact Tg|]. split; [exact Tg'|]. constructor.
  - lia.
  - apply (code_perm_permutes f Hi t); auto.
  - apply (code_cell f Hi t); auto.
  - apply (nu_whole _ _ _ Ng).
  - intros v I. apply (code_range f t U U' CU g Ng); auto.
  - intros z H. destruct (code_occurs f t U U' CU g Ng z H) as (q & I & E). exists q. split; auto. apply E. lra.
  - apply (code_perm_first f Hi t); auto.
Qed.
