(** The reduction of a cdf to at most n bins (C06, C07). *)
From Coq Require Import ZArith NArith QArith Qround Qfield List Bool Lia Lqa ZifyBool.
From Verif.Model Require Import Num BinarySearch Flags Ecdf.
From Verif.Spec Require Import SearchSpec BinningSpec.
From Verif.Proofs Require Import NumFacts FnumOrder BinarySearchFacts EcdfFacts.
Import ListNotations.
Local Open Scope Q_scope.

(** ** One step: the searched probability *)
Lemma Qmod_decomp a b : 0 < b ->
  exists q, Qmod a b == a - b * inject_Z q /\ b * inject_Z q <= a /\ a < b * inject_Z (q + 1).
Proof.
  intro Hb. exists (Qfloor (a / b)). split; [reflexivity|].
  assert (E : a == b * (a / b)) by (field; lra).
  pose proof (Qfloor_le (a / b)) as H1. pose proof (Qlt_floor (a / b)) as H2.
  split.
  - rewrite E at 2. apply Qmult_le_l; auto.
  - rewrite E at 1. apply Qmult_lt_l; auto.
Qed.

Lemma inject_Z_S q : inject_Z (q + 1) == inject_Z q + 1.
Proof. rewrite inject_Z_plus. reflexivity. Qed.

Lemma inject_Z_P q : inject_Z (q - 1) == inject_Z q - 1.
Proof. unfold Z.sub. rewrite inject_Z_plus. reflexivity. Qed.

Section Step.
Variables (N : Z) (share tol eps : Q).
Hypothesis HN : (2 <= N)%Z.
Hypothesis Hshare : share * inject_Z N == 1.
Hypothesis Hpos : 0 < share.
Hypothesis Htol : 0 <= tol < 1.

Definition searched_of (prev : Q) : Q :=
  let rest := Qmod prev share in
  let searched0 := prev + share in
  if Qle_bool rest (tol * share) then searched0 - rest else searched0.

Lemma Z_of_mult_lt (a b : Z) : share * inject_Z a < share * inject_Z b -> (a < b)%Z.
Proof. intro H. rewrite Zlt_Qlt. apply (Qmult_lt_l _ _ share); auto. Qed.

Lemma searched_bounds prev : 0 <= prev <= 1 ->
  (searched_of prev <= 1 + tol * share -> searched_of prev <= 1) /\
  (1 - tol) * share <= searched_of prev - prev /\
  (prev == 1 -> 1 + tol * share < searched_of prev).
Proof.
  intros Hp. unfold searched_of. cbv zeta.
  destruct (Qmod_decomp prev share Hpos) as (q & Er & H1 & H2).
  rewrite inject_Z_S in H2.
  assert (T : tol * share < share) by nra.
  assert (T0 : 0 <= tol * share) by nra.
  destruct (Qle_bool (Qmod prev share) (tol * share)) eqn:E.
  - apply Qle_bool_iff in E. rewrite Er in *.
    assert (S : prev + share - (prev - share * inject_Z q) == share * inject_Z (q + 1)) by (rewrite inject_Z_S; ring).
    rewrite S. repeat split.
    + intro H. assert (L : share * inject_Z (q + 1) < share * inject_Z (N + 1)).
      { rewrite (inject_Z_S N). rewrite Qmult_plus_distr_r, Hshare. lra. }
      apply Z_of_mult_lt in L. rewrite <- Hshare. apply Qmult_le_l; auto. rewrite <- Zle_Qle. lia.
    + rewrite inject_Z_S. lra.
    + intro P1. assert (L : share * inject_Z N < share * inject_Z (q + 1)).
      { rewrite Hshare, inject_Z_S, Qmult_plus_distr_r. lra. }
      apply Z_of_mult_lt in L.
      assert (L2 : share * inject_Z (N + 1) <= share * inject_Z (q + 1)).
      { apply Qmult_le_l; auto. rewrite <- Zle_Qle. lia. }
      rewrite (inject_Z_S N) in L2. rewrite Qmult_plus_distr_r, Hshare in L2. lra.
  - apply Qle_bool_false in E. rewrite Er in E. repeat split.
    + intro H. apply Qnot_lt_le. intro K.
      (* prev > 1 - share = (N-1) share, so q = N-1 and rest <= tol share *)
      assert (L : share * inject_Z (N - 1) < share * inject_Z (q + 1)).
      { rewrite inject_Z_P, inject_Z_S. lra. }
      apply Z_of_mult_lt in L.
      assert (L2 : share * inject_Z (N - 1) <= share * inject_Z q).
      { apply Qmult_le_l; auto. rewrite <- Zle_Qle. lia. }
      rewrite inject_Z_P in L2. lra.
    + lra.
    + intro P1. lra.
Qed.

(** Each step advances by a full share, up to the slack [d]. *)
Lemma searched_progress prev i d : 0 <= prev ->
  share * inject_Z i - d <= prev -> 0 <= d < (1 - tol) * share ->
  share * inject_Z (i + 1) - d <= searched_of prev.
Proof.
  intros H0 Hi Hd. unfold searched_of. cbv zeta. rewrite (inject_Z_S i), Qmult_plus_distr_r.
  destruct (Qmod_decomp prev share Hpos) as (q & Er & H1 & H2).
  rewrite inject_Z_S in H2.
  destruct (Qle_bool (Qmod prev share) (tol * share)) eqn:E; [|lra].
  apply Qle_bool_iff in E. rewrite Er in *.
  assert (L : share * inject_Z (i - 1) < share * inject_Z q).
  { rewrite inject_Z_P. lra. }
  apply Z_of_mult_lt in L.
  assert (L2 : share * inject_Z i <= share * inject_Z q).
  { apply Qmult_le_l; auto. rewrite <- Zle_Qle. lia. }
  lra.
Qed.
End Step.

(** ** Lists *)
Definition strict_nat (l : list nat) : Prop :=
  forall i j a b, (i < j)%nat -> nth_error l i = Some a -> nth_error l j = Some b -> (a < b)%nat.
Definition gap (m : Q) (l : list Q) : Prop :=
  forall i a b, nth_error l i = Some a -> nth_error l (S i) = Some b -> m <= b - a.

Lemma nth_error_snoc {A} (l : list A) x i y :
  nth_error (l ++ [x]) i = Some y -> (nth_error l i = Some y /\ (i < length l)%nat) \/ (i = length l /\ y = x).
Proof.
  intro H. destruct (Nat.lt_ge_cases i (length l)) as [L|L].
  - rewrite nth_error_app1 in H by auto. auto.
  - rewrite nth_error_app2 in H by auto.
    destruct (i - length l)%nat as [|m] eqn:E.
    + cbn in H. injection H as <-. right. split; auto. lia.
    + cbn in H. destruct m; discriminate.
Qed.

Lemma strict_snoc l k : strict_nat l -> (forall x, In x l -> (x < k)%nat) -> strict_nat (l ++ [k]).
Proof.
  intros Hs Hk i j a b Hij Ha Hb.
  apply nth_error_snoc in Ha. apply nth_error_snoc in Hb.
  destruct Hb as [[Hb Lb]|[-> ->]], Ha as [[Ha La]|[-> ->]]; try lia.
  - apply (Hs i j); auto.
  - apply Hk. eapply nth_error_In; eauto.
Qed.

Lemma strict_init l k : strict_nat (l ++ [k]) -> strict_nat l /\ forall x, In x l -> (x < k)%nat.
Proof.
  intro H. split.
  - intros i j a b Hij Ha Hb. apply (H i j); auto; rewrite nth_error_app1; auto; apply nth_error_Some; congruence.
  - intros x Hx. apply In_nth_error in Hx. destruct Hx as [i Hi].
    assert (i < length l)%nat by (apply nth_error_Some; congruence).
    apply (H i (length l)); auto.
    + rewrite nth_error_app1; auto.
    + rewrite nth_error_app2, Nat.sub_diag; auto.
Qed.

Lemma gap_snoc m l x : gap m l -> (forall y, nth_error l (length l - 1) = Some y -> m <= x - y) -> gap m (l ++ [x]).
Proof.
  intros Hg Hx i a b Ha Hb.
  apply nth_error_snoc in Ha. apply nth_error_snoc in Hb.
  destruct Hb as [[Hb Lb]|[Eb ->]], Ha as [[Ha La]|[Ea ->]]; try lia.
  - eapply Hg; eauto.
  - apply Hx. rewrite <- Ha. f_equal. lia.
Qed.

Lemma gap_init m l x : gap m (l ++ [x]) -> gap m l.
Proof.
  intros H i a b Ha Hb. apply (H i); rewrite nth_error_app1; auto; apply nth_error_Some; congruence.
Qed.

Lemma gap_last m l x y : gap m (l ++ [y]) -> nth_error l (length l - 1) = Some x -> m <= y - x.
Proof.
  intros H Hx. assert (length l - 1 < length l)%nat by (apply nth_error_Some; congruence).
  apply (H (length l - 1)%nat).
  - rewrite nth_error_app1; auto.
  - rewrite nth_error_app2 by lia. replace (S (length l - 1) - length l)%nat with 0%nat by lia. reflexivity.
Qed.

Lemma gap_increasing m l : 0 < m -> gap m l -> increasingQ l.
Proof.
  intros Hm Hg i j a b Hij. revert a b.
  assert (G : forall d a b, nth_error l i = Some a -> nth_error l (i + S d) = Some b -> a < b).
  { induction d as [|d IH]; intros a b Ha Hb.
    - replace (i + 1)%nat with (S i) in Hb by lia. pose proof (Hg i a b Ha Hb). lra.
    - destruct (nth_error l (i + S d)) as [c|] eqn:Ec.
      + specialize (IH a c Ha eq_refl).
        replace (i + S (S d))%nat with (S (i + S d)) in Hb by lia.
        pose proof (Hg _ c b Ec Hb). lra.
      + apply nth_error_None in Ec. assert (i + S (S d) < length l)%nat by (apply nth_error_Some; congruence). lia. }
  intros a b Ha Hb. apply (G (j - i - 1)%nat); auto. rewrite <- Hb. f_equal. lia.
Qed.

Lemma removelast_snoc {A} (l : list A) x : removelast (l ++ [x]) = l.
Proof. apply removelast_last. Qed.

(** ** The loop *)
Section Loop.
Variables (bins_x : list fnum) (cdf_x : list Q) (N : Z) (share tol eps : Q).
Let n := length cdf_x.
Let nb i := nth i bins_x NaN.
Let nc i := nth i cdf_x 0.
Hypothesis Hlen : length bins_x = n.
Hypothesis Hne : (0 < n)%nat.
Hypothesis Hinc : increasingQ cdf_x.
Hypothesis Hfirst : 0 < nc 0.
Hypothesis Hlast : nc (n - 1) == 1.
Hypothesis HN : (2 <= N)%Z.
Hypothesis Hshare : share * inject_Z N == 1.
Hypothesis Hpos : 0 < share.
Hypothesis Htol : 0 <= tol < 1.
Hypothesis Heps : 0 <= eps < (1 - tol) * share.

Lemma nc_error i : (i < n)%nat -> nth_error cdf_x i = Some (nc i).
Proof. intro H. apply nth_error_nth'. exact H. Qed.
Lemma nb_error i : (i < n)%nat -> nth_error bins_x i = Some (nb i).
Proof. intro H. apply nth_error_nth'. lia. Qed.
Lemma nc_mono i j : (i < j)%nat -> (j < n)%nat -> nc i < nc j.
Proof. intros H1 H2. apply (Hinc i j); auto; apply nc_error; lia. Qed.
Lemma nc_le i j : (i <= j)%nat -> (j < n)%nat -> nc i <= nc j.
Proof.
  intros H1 H2. destruct (Nat.eq_dec i j) as [->|]; [lra|].
  assert (nc i < nc j) by (apply nc_mono; lia). lra.
Qed.
Lemma nc_range i : (i < n)%nat -> 0 < nc i <= 1.
Proof.
  intro H. pose proof (nc_le 0 i ltac:(lia) H). pose proof (nc_le i (n - 1) ltac:(lia) ltac:(lia)). lra.
Qed.
Lemma nc_inj i j : (i < n)%nat -> (j < n)%nat -> nc i == nc j -> i = j.
Proof.
  intros Hi Hj E. destruct (Nat.lt_trichotomy i j) as [L|[L|L]]; auto;
    [pose proof (nc_mono i j L Hj)|pose proof (nc_mono j i L Hi)]; lra.
Qed.

Lemma sorted_cdf : sorted_array (map Fin cdf_x).
Proof.
  split.
  - apply Forall_forall. intros v Hv. apply in_map_iff in Hv. destruct Hv as (q & <- & _). discriminate.
  - intros i j a b Hij Ha Hb. rewrite nth_error_map in Ha, Hb.
    destruct (nth_error cdf_x i) as [x|] eqn:Ei; [|discriminate].
    destruct (nth_error cdf_x j) as [y|] eqn:Ej; [|discriminate].
    cbn in Ha, Hb. injection Ha as <-. injection Hb as <-.
    apply fle_Fin. pose proof (Hinc i j x y Hij Ei Ej). lra.
Qed.

Lemma elem_cdf i : (i < n)%nat -> elem (map Fin cdf_x) (Z.of_nat i) (Fin (nc i)).
Proof.
  intro H. split; [lia|]. rewrite Nat2Z.id, nth_error_map, nc_error; auto.
Qed.

(** The search of one step. *)
Lemma step_search k prev :
  (k < n)%nat -> 0 <= prev <= 1 ->
  searched_of share tol prev <= 1 + tol * share ->
  exists k', (k <= k' < n)%nat /\
    ge_lim (map Fin cdf_x) (Fin (searched_of share tol prev - eps)) true (Z.of_nat k) (Z.of_nat n)
      = Found (Z.of_nat k') /\
    searched_of share tol prev - eps <= nc k' /\
    (forall j, (k <= j < k')%nat -> nc j < searched_of share tol prev - eps).
Proof.
  intros Hk Hp Hs.
  destruct (searched_bounds N share tol Hshare Hpos Htol prev Hp) as (B1 & B2 & B3).
  specialize (B1 Hs).
  destruct (ge_lim_inclusive (map Fin cdf_x) (Fin (searched_of share tol prev - eps)) (Z.of_nat k) (Z.of_nat n))
    as (i & Hi & (Bi & F1 & F2)).
  - apply sorted_cdf.
  - lia.
  - rewrite map_length. fold n. lia.
  - assert (I : (i < Z.of_nat n)%Z).
    { destruct (Z.eq_dec i (Z.of_nat n)) as [->|]; [|lia]. exfalso.
      specialize (F1 (Z.of_nat (n - 1)) _ (elem_cdf (n - 1) ltac:(lia)) ltac:(lia) ltac:(lia)).
      unfold fge in F1. apply fle_Fin_false in F1. rewrite Hlast in F1. lra. }
    exists (Z.to_nat i). split; [lia|]. split.
    + rewrite Hi. f_equal. lia.
    + split.
      * specialize (F2 i (Fin (nc (Z.to_nat i)))). unfold fge in F2.
        rewrite fle_Fin in F2. apply F2; try lia.
        pose proof (elem_cdf (Z.to_nat i) ltac:(lia)) as E. rewrite Z2Nat.id in E by lia. exact E.
      * intros j Hj. specialize (F1 (Z.of_nat j) _ (elem_cdf j ltac:(lia)) ltac:(lia) ltac:(lia)).
        unfold fge in F1. apply fle_Fin_false in F1. exact F1.
Qed.

Definition cvals (idxs : list nat) : list Q := 0 :: map nc idxs.
Definition good (idxs : list nat) : Prop :=
  strict_nat idxs /\ (forall x, In x idxs -> (x < n)%nat) /\ gap ((1 - tol) * share - eps) (cvals idxs).

(** Position [k] is the first one that reaches the probability searched from [c]. *)
Definition reach (c : Q) (k : nat) : Prop :=
  searched_of share tol c - eps <= nc k /\ forall j, (j < k)%nat -> nc j < searched_of share tol c - eps.
Definition reaches (idxs : list nat) : Prop :=
  forall i c k, nth_error (cvals idxs) i = Some c -> nth_error idxs i = Some k -> reach c k.

Definition small_eps : Prop := eps * inject_Z N < (1 - tol) * share.

(** Result of the loop in terms of a list of selected positions. *)
Definition outcome (r : reduce_result) (limit : nat) : Prop :=
  exists pre k cc, r = ReduceOk (nb 0 :: map nb (pre ++ [k])) cc /\
    Forall2 Qeq cc (cvals (pre ++ [k])) /\ hd_error cc = Some 0 /\
    good (pre ++ [k]) /\ (length pre + 1 <= limit)%nat /\
    (reaches (pre ++ [k]) \/
     (k = (n - 1)%nat /\ exists k0, reaches (pre ++ [k0]) /\ (k0 < n)%nat /\ 1 + tol * share < searched_of share tol (nc k0))) /\
    (small_eps -> limit = Z.to_nat N -> 1 - eps * inject_Z N <= nc k).

Lemma last_cvals pre k : nth_error (cvals (pre ++ [k])) (length (cvals (pre ++ [k])) - 1) = Some (nc k).
Proof.
  unfold cvals. rewrite map_app. cbn [map length].
  rewrite app_length. cbn [length]. replace (S (length (map nc pre) + 1) - 1)%nat with (S (length (map nc pre))) by lia.
  cbn [nth_error]. rewrite nth_error_app2, Nat.sub_diag; auto.
Qed.

Lemma cvals_snoc pre k : cvals (pre ++ [k]) = cvals pre ++ [nc k].
Proof. unfold cvals. rewrite map_app. reflexivity. Qed.

Lemma reaches_snoc pre k k' : reaches (pre ++ [k]) -> reach (nc k) k' -> reaches ((pre ++ [k]) ++ [k']).
Proof.
  intros H Hr i c j Hc Hj. apply nth_error_snoc in Hj. rewrite cvals_snoc in Hc. apply nth_error_snoc in Hc.
  assert (Lc : length (cvals (pre ++ [k])) = S (length (pre ++ [k]))) by (unfold cvals; cbn; rewrite map_length; auto).
  destruct Hj as [[Hj Lj]|[-> ->]].
  - destruct Hc as [[Hc _]|[E _]]; [|lia]. eapply H; eauto.
  - destruct Hc as [[Hc _]|[E _]]; [|lia].
    pose proof (last_cvals pre k) as L. rewrite Lc in L. cbn [length] in L.
    replace (S (length (pre ++ [k])) - 1)%nat with (length (pre ++ [k])) in L by lia.
    rewrite L in Hc. injection Hc as <-. exact Hr.
Qed.

Lemma Forall2_Qeq_refl l : Forall2 Qeq l l.
Proof. induction l; constructor; auto. reflexivity. Qed.

Lemma loop_outcome : forall todo pre k,
  good (pre ++ [k]) -> reaches (pre ++ [k]) ->
  (small_eps -> share * inject_Z (Z.of_nat (length pre + 1)) - eps * inject_Z (Z.of_nat (length pre + 1)) <= nc k) ->
  (Z.of_nat (length pre + 1 + todo) <= N)%Z ->
  outcome (reduce_loop todo bins_x cdf_x share eps tol (Z.of_nat k) (nc k)
             (nb 0 :: map nb (pre ++ [k])) (cvals (pre ++ [k])))
          (length pre + 1 + todo).
Proof.
  induction todo as [|todo IH]; intros pre k Hg Hre Hprog HlN.
  - cbn [reduce_loop]. exists pre, k, (cvals (pre ++ [k])).
    split; [reflexivity|]. split; [apply Forall2_Qeq_refl|]. split; [reflexivity|]. split; [exact Hg|].
    split; [lia|]. split; [left; exact Hre|]. intros Hs El. specialize (Hprog Hs).
    replace (Z.of_nat (length pre + 1)) with N in Hprog by lia. lra.
  - cbn [reduce_loop].
    assert (Hk : (k < n)%nat) by (apply Hg; apply in_or_app; right; left; auto).
    pose proof (nc_range k Hk) as Rk.
    fold (searched_of share tol (nc k)).
    destruct (searched_bounds N share tol Hshare Hpos Htol (nc k) ltac:(lra)) as (B1 & B2 & B3).
    destruct (Qle_bool (searched_of share tol (nc k)) (1 + tol * share)) eqn:E.
    + apply Qle_bool_iff in E.
      destruct (step_search k (nc k) Hk ltac:(lra) E) as (k' & Hk' & Hf & Hc & Hfst).
      fold n. rewrite Hf.
      rewrite (pyget_in_range cdf_x), (pyget_in_range bins_x) by (rewrite ?Hlen; fold n; lia).
      rewrite Nat2Z.id, nc_error, nb_error by lia.
      assert (Lk : (k < k')%nat).
      { destruct (Nat.eq_dec k k') as [<-|]; [exfalso; lra|lia]. }
      replace (nb 0 :: map nb (pre ++ [k])) with (nb 0 :: map nb (pre ++ [k])) by reflexivity.
      replace ((nb 0 :: map nb (pre ++ [k])) ++ [nb k']) with (nb 0 :: map nb ((pre ++ [k]) ++ [k']))
        by (rewrite (map_app nb (pre ++ [k])); reflexivity).
      rewrite <- cvals_snoc.
      replace (length pre + 1 + S todo)%nat with (length (pre ++ [k]) + 1 + todo)%nat
        by (rewrite app_length; cbn; lia).
      apply IH.
      * destruct Hg as (G1 & G2 & G3). split; [|split].
        { apply strict_snoc; auto. intros x Hx. apply in_app_or in Hx. destruct Hx as [Hx|[<-|[]]]; auto.
          apply strict_init in G1. destruct G1 as [_ G1]. specialize (G1 x Hx). lia. }
        { intros x Hx. apply in_app_or in Hx. destruct Hx as [Hx|[<-|[]]]; auto. lia. }
        { rewrite cvals_snoc. apply gap_snoc; auto. intros y Hy. rewrite last_cvals in Hy. injection Hy as <-. lra. }
      * apply reaches_snoc; auto. split; [exact Hc|]. intros j Hj.
        destruct (Nat.le_gt_cases k j) as [L|L]; [apply Hfst; lia|].
        pose proof (nc_mono j k L Hk). lra.
      * intro Hs. specialize (Hprog Hs). rewrite app_length. cbn [length].
        replace (Z.of_nat (length pre + 1 + 1)) with (Z.of_nat (length pre + 1) + 1)%Z by lia.
        set (i := Z.of_nat (length pre + 1)) in *.
        assert (Hi : eps * inject_Z i <= eps * inject_Z N).
        { rewrite (Qmult_comm eps), (Qmult_comm eps (inject_Z N)).
          apply Qmult_le_compat_r; [rewrite <- Zle_Qle; lia|lra]. }
        assert (Hi0 : 0 <= eps * inject_Z i).
        { apply Qmult_le_0_compat; [lra|]. change 0 with (inject_Z 0). rewrite <- Zle_Qle. lia. }
        unfold small_eps in Hs.
        pose proof (searched_progress share tol Hpos (nc k) i (eps * inject_Z i) ltac:(lra) ltac:(lra) ltac:(lra)) as P.
        rewrite (inject_Z_S i) in *. lra.
      * rewrite app_length. cbn [length]. lia.
    + apply Qle_bool_false in E. fold n.
      rewrite (pyget_in_range bins_x) by (rewrite Hlen; lia).
      replace (Z.to_nat (Z.of_nat n - 1)) with (n - 1)%nat by lia. rewrite nb_error by lia.
      exists pre, (n - 1)%nat, (removelast (cvals (pre ++ [k])) ++ [1]).
      replace (nb 0 :: map nb (pre ++ [k])) with ((nb 0 :: map nb pre) ++ [nb k])
        by (rewrite map_app; reflexivity).
      rewrite removelast_snoc, cvals_snoc, removelast_snoc.
      split; [rewrite map_app; reflexivity|].
      split. { rewrite cvals_snoc. apply Forall2_app; [apply Forall2_Qeq_refl|]. constructor; [|constructor]. symmetry; exact Hlast. }
      split; [reflexivity|].
      split; [|split; [lia|split; [right; split; auto; exists k; auto|intros _ _; rewrite Hlast; assert (0 <= eps * inject_Z N)
        by (apply Qmult_le_0_compat; [lra|]; change 0 with (inject_Z 0); rewrite <- Zle_Qle; lia); lra]]].
      destruct Hg as (G1 & G2 & G3). pose proof (strict_init _ _ G1) as [G4 G5]. split; [|split].
      * apply strict_snoc; auto. intros x Hx. specialize (G5 x Hx). lia.
      * intros x Hx. apply in_app_or in Hx. destruct Hx as [Hx|[<-|[]]]; [|lia]. apply G2. apply in_or_app; auto.
      * rewrite cvals_snoc in *. apply gap_snoc; [eapply gap_init; eauto|]. intros y Hy.
        pose proof (gap_last _ _ _ _ G3 Hy) as L. pose proof (nc_le k (n - 1) ltac:(lia) ltac:(lia)). lra.
Qed.

Lemma reduce_outcome :
  outcome (reduce_loop (Z.to_nat N) bins_x cdf_x share eps tol 0 0 [nb 0] [0]) (Z.to_nat N).
Proof.
  destruct (Z.to_nat N) as [|todo] eqn:EN; [lia|].
  cbn [reduce_loop]. fold (searched_of share tol 0).
  destruct (searched_bounds N share tol Hshare Hpos Htol 0 ltac:(lra)) as (B1 & B2 & B3).
  assert (S1 : searched_of share tol 0 <= share).
  { unfold searched_of. cbv zeta. destruct (Qmod_decomp 0 share Hpos) as (q & Er & H1 & H2).
    destruct (Qle_bool (Qmod 0 share) (tol * share)) eqn:E; [|lra]. rewrite Er. lra. }
  assert (S2 : share <= 1).
  { rewrite <- Hshare. setoid_replace share with (share * 1) at 1 by ring. apply Qmult_le_l; auto.
    change 1 with (inject_Z 1). rewrite <- Zle_Qle. lia. }
  assert (T0 : 0 <= tol * share) by (apply Qmult_le_0_compat; lra).
  destruct (Qle_bool (searched_of share tol 0) (1 + tol * share)) eqn:E.
  2:{ apply Qle_bool_false in E. exfalso. lra. }
  apply Qle_bool_iff in E.
  destruct (step_search 0 0 Hne ltac:(lra) E) as (k' & Hk' & Hf & Hc & Hfst).
  change (Z.of_nat 0) with 0%Z in Hf. fold n. rewrite Hf.
  rewrite (pyget_in_range cdf_x), (pyget_in_range bins_x) by (rewrite ?Hlen; fold n; lia).
  rewrite Nat2Z.id, nc_error, nb_error by lia.
  pose proof (loop_outcome todo [] k') as L. cbn [app length] in L.
  replace (0 + 1 + todo)%nat with (S todo) in L by lia.
  apply L; clear L.
  - split; [|split].
    + intros [|i] [|j] a b Hij Ha Hb; try lia; destruct j; discriminate.
    + intros x [<-|[]]. lia.
    + intros [|[|i]] a b Ha Hb; cbn in Ha, Hb; try discriminate.
      injection Ha as <-. injection Hb as <-. lra.
  - intros [|[|i]] c k Hi Hk; cbn in Hi, Hk; try discriminate. injection Hi as <-. injection Hk as <-.
    split; [exact Hc|]. intros j Hj. apply Hfst. lia.
  - intro Hs. change (inject_Z (Z.of_nat (0 + 1))) with 1.
    pose proof (searched_progress share tol Hpos 0 0 0 ltac:(lra)) as P.
    change (inject_Z 0) with 0 in P. change (inject_Z (0 + 1)) with 1 in P.
    assert (0 < (1 - tol) * share) by (apply Qmult_lt_0_compat; lra).
    assert (A1 : share * 0 - 0 <= 0) by lra. assert (A2 : 0 <= 0 < (1 - tol) * share) by lra.
    specialize (P A1 A2). lra.
  - lia.
Qed.
End Loop.
