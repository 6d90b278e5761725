(** Facts on the diagnostics. *)
From Coq Require Import ZArith List Bool Reals Lia Lra Sorted Permutation.
From Verif.Model Require Import Train Quantile Dispersion Diagnostics.
From Verif.Spec Require Import QuantileSpec DiagnosticsSpec.
From Verif.Proofs Require Import TrainFacts TrainExamples LinkFacts QuantileFacts.
Import ListNotations.
Local Open Scope R_scope.

(** ** Parts of the range *)
Lemma fold_max l : forall x, x <= fold_left Rmax l x /\ (forall v, In v l -> v <= fold_left Rmax l x) /\
  (fold_left Rmax l x = x \/ In (fold_left Rmax l x) l).
Proof.
  induction l as [|a l IH]; intro x; cbn [fold_left]; [split; [lra|split; [intros v []|left; reflexivity]]|].
  destruct (IH (Rmax x a)) as (A & B & C). pose proof (Rmax_l x a). pose proof (Rmax_r x a).
  split; [lra|]. split.
  - intros v [<-|I]; [lra|auto].
  - destruct C as [C|C]; [|right; right; exact C]. rewrite C. unfold Rmax. destruct (Rle_dec x a); [right; left; reflexivity|left; reflexivity].
Qed.
Lemma fold_min l : forall x, fold_left Rmin l x <= x /\ (forall v, In v l -> fold_left Rmin l x <= v) /\
  (fold_left Rmin l x = x \/ In (fold_left Rmin l x) l).
Proof.
  induction l as [|a l IH]; intro x; cbn [fold_left]; [split; [lra|split; [intros v []|left; reflexivity]]|].
  destruct (IH (Rmin x a)) as (A & B & C). pose proof (Rmin_l x a). pose proof (Rmin_r x a).
  split; [lra|]. split.
  - intros v [<-|I]; [lra|auto].
  - destruct C as [C|C]; [|right; right; exact C]. rewrite C. unfold Rmin. destruct (Rle_dec x a); [left; reflexivity|right; left; reflexivity].
Qed.
Lemma range_exists l : l <> [] -> exists lo hi, min_of l = Some lo /\ max_of l = Some hi /\ range_of l lo hi.
Proof.
  destruct l as [|x r]; [congruence|]. intros _. exists (fold_left Rmin r x), (fold_left Rmax r x).
  destruct (fold_max r x) as (A & B & C). destruct (fold_min r x) as (A' & B' & C').
  split; [reflexivity|]. split; [reflexivity|]. split; [cbn; destruct C'; [left; congruence|right; assumption]|].
  split; [cbn; destruct C; [left; congruence|right; assumption]|].
  intros p [<-|I]; [lra|]. split; auto.
Qed.
Lemma max_of_unique l m : In m l -> (forall v, In v l -> v <= m) -> max_of l = Some m.
Proof.
  destruct l as [|x r]; [intros []|]. intros I H. cbn. f_equal. destruct (fold_max r x) as (A & B & C).
  apply Rle_antisym.
  - destruct C as [->|C]; [apply H; left; reflexivity|apply H; right; exact C].
  - destruct I as [->|I]; [exact A|auto].
Qed.

Lemma linspace_edges lo hi n : (1 <= n)%nat -> linspace lo hi (n + 1) = map (edge lo hi n) (seq 0 (S n)).
Proof.
  intro H. replace (n + 1)%nat with (S n) by lia. destruct n as [|n]; [lia|]. unfold linspace.
  replace (S (S n) - 1)%nat with (S n) by lia. reflexivity.
Qed.
Lemma edge_mono lo hi n i j : lo <= hi -> (1 <= n)%nat -> (i <= j)%nat -> edge lo hi n i <= edge lo hi n j.
Proof.
  intros H N I. unfold edge. assert (0 < INR n) by (apply lt_0_INR; lia).
  assert (0 <= (hi - lo) / INR n) by (apply Rmult_le_pos; [lra|left; now apply Rinv_0_lt_compat]).
  apply le_INR in I. apply Rplus_le_compat_l. now apply Rmult_le_compat_r.
Qed.
Lemma edge_0 lo hi n : edge lo hi n 0 = lo.
Proof. unfold edge. cbn. lra. Qed.
Lemma edge_n lo hi n : (1 <= n)%nat -> edge lo hi n n = hi.
Proof. intro N. unfold edge. field. apply not_0_INR. lia. Qed.

Lemma count_sorted (f : nat -> R) v : forall m s, (forall i j, (s <= i <= j)%nat -> (j < s + m)%nat -> f i <= f j) ->
  let c := length (filter (fun b => Rleb b v) (map f (seq s m))) in
  (c <= m)%nat /\ (forall i, (s <= i < s + c)%nat -> f i <= v) /\ (forall i, (s + c <= i < s + m)%nat -> v < f i).
Proof.
  induction m as [|m IH]; intros s H; cbv zeta.
  - cbn. split; [lia|]. split; intros i I; lia.
  - cbn [seq map filter]. destruct (Rleb (f s) v) eqn:E.
    + apply Rleb_iff in E. destruct (IH (S s)) as (A & B & C); [intros i j I J; apply H; lia|]. cbv zeta in A, B, C.
      cbn [length]. split; [lia|]. split.
      * intros i I. destruct (Nat.eq_dec i s) as [->|N]; [exact E|]. apply B. lia.
      * intros i I. apply C. lia.
    + apply Rleb_false in E. replace (filter _ (map f (seq (S s) m))) with (@nil R).
      * cbn. split; [lia|]. split; [intros i I; lia|]. intros i I. apply (Rlt_le_trans _ (f s)); [exact E|apply H; lia].
      * symmetry. destruct (IH (S s)) as (A & B & C); [intros i j I J; apply H; lia|]. cbv zeta in B.
        destruct (filter (fun b => Rleb b v) (map f (seq (S s) m))) as [|b l] eqn:F; [reflexivity|]. exfalso.
        specialize (B (S s)). cbn [length] in B. specialize (B ltac:(lia)).
        assert (f s <= f (S s)); [|lra].
        destruct m as [|m]; [cbn in F; discriminate|]. apply H; lia.
Qed.

Lemma digitize_part lo hi n v : (1 <= n)%nat -> lo <= v <= hi ->
  exists b : nat, digitize (linspace lo hi (n + 1)) v = Z.of_nat b /\ in_part lo hi n v b.
Proof.
  intros N V. rewrite linspace_edges by exact N. unfold digitize.
  assert (M : max_of (map (edge lo hi n) (seq 0 (S n))) = Some hi).
  { apply max_of_unique.
    - apply in_map_iff. exists n. split; [now apply edge_n|]. apply in_seq. lia.
    - intros x I. apply in_map_iff in I. destruct I as (i & <- & I). apply in_seq in I.
      apply (Rle_trans _ (edge lo hi n n)); [apply edge_mono; [lra|exact N|lia]|rewrite edge_n by exact N; lra]. }
  rewrite M. unfold np_digitize.
  destruct (count_sorted (edge lo hi n) v (S n) 0) as (A & B & C).
  { intros i j I J. apply edge_mono; [lra|exact N|lia]. }
  cbv zeta in A, B, C. set (c := length (filter (fun b => Rleb b v) (map (edge lo hi n) (seq 0 (S n))))) in *.
  assert (C1 : (1 <= c)%nat).
  { destruct (Nat.eq_dec c 0) as [Z|Z]; [|lia]. exfalso. specialize (C 0%nat ltac:(lia)). rewrite edge_0 in C. lra. }
  destruct (Rleb hi v) eqn:E.
  - apply Rleb_iff in E. assert (v = hi) by lra. subst v.
    assert (c = S n).
    { destruct (Nat.eq_dec c (S n)) as [Z|Z]; [exact Z|]. exfalso. specialize (C n ltac:(lia)). rewrite edge_n in C by exact N. lra. }
    exists n. split; [lia|]. split; [lia|]. rewrite edge_n by exact N. split; [|right; reflexivity].
    split; [|lra]. apply B. lia.
  - apply Rleb_false in E.
    assert (Cn : (c <= n)%nat).
    { destruct (le_lt_dec c n) as [L|L]; [exact L|]. exfalso. specialize (B n ltac:(lia)). rewrite edge_n in B by exact N. lra. }
    exists c. split; [reflexivity|]. split; [lia|]. specialize (B (c - 1)%nat ltac:(lia)). specialize (C c ltac:(lia)).
    split; [lra|left; lra].
Qed.

(** ** Centres *)
Lemma map2_nth (f : R -> R -> R) : forall a b, length a = length b ->
  map2 f a b = map (fun i => f (nth i a 0) (nth i b 0)) (seq 0 (length a)).
Proof.
  induction a as [|x a IH]; intros [|y b] L; cbn in L; try lia; [reflexivity|]. cbn [map2 length seq map nth]. f_equal.
  rewrite IH by lia. rewrite <- seq_shift, map_map. reflexivity.
Qed.
Lemma tl_map_seq (f : nat -> R) n : tl (map f (seq 0 (S n))) = map (fun k => f (S k)) (seq 0 n).
Proof. cbn [seq map tl]. rewrite <- seq_shift, map_map. reflexivity. Qed.
Lemma removelast_map_seq (f : nat -> R) n : removelast (map f (seq 0 (S n))) = map f (seq 0 n).
Proof. rewrite seq_S, map_app. cbn [map Nat.add]. apply removelast_last. Qed.
Lemma centres_middle lo hi n : (1 <= n)%nat ->
  let b := linspace lo hi (n + 1) in
  map2 (fun u l => / 2 * (u + l)) (tl b) (removelast b) = map (fun k => middle lo hi n k) (seq 1 n).
Proof.
  intro N. cbv zeta. rewrite linspace_edges by exact N. rewrite tl_map_seq, removelast_map_seq.
  assert (G : forall l, map2 (fun u l0 => / 2 * (u + l0)) (map (fun k => edge lo hi n (S k)) l) (map (edge lo hi n) l)
     = map (fun k => middle lo hi n (S k)) l).
  { induction l as [|k l IH]; cbn [map map2]; [reflexivity|]. rewrite IH. f_equal. unfold middle.
    replace (S k - 1)%nat with k by lia. lra. }
  rewrite G, <- seq_shift, map_map. reflexivity.
Qed.

Lemma keep_map_seq (p : nat -> bool) (f : nat -> R) : forall l, keep (map p l) (map f l) = map f (filter p l).
Proof. induction l as [|x l IH]; cbn; [reflexivity|]. rewrite IH. destruct (p x); reflexivity. Qed.

(** The ascending list of the numbers 1..n that satisfy [p]. *)
Lemma sorted_unique : forall l l' : list Z, StronglySorted Z.lt l -> StronglySorted Z.lt l' -> (forall k, In k l <-> In k l') -> l = l'.
Proof.
  induction l as [|a l IH]; intros [|b l'] S S' E.
  - reflexivity.
  - exfalso. apply (E b). left; reflexivity.
  - exfalso. apply (E a). left; reflexivity.
  - apply StronglySorted_inv in S. apply StronglySorted_inv in S'. destruct S as [S F], S' as [S' F'].
    rewrite Forall_forall in F, F'.
    assert (a = b).
    { assert (I : In a (b :: l')) by (apply E; left; reflexivity). assert (J : In b (a :: l)) by (apply E; left; reflexivity).
      destruct I as [I|I]; [congruence|]. destruct J as [J|J]; [congruence|]. specialize (F b J). specialize (F' a I). lia. }
    subst b. f_equal. apply IH; auto. intro k. split; intro I.
    + assert (J : In k (a :: l')) by (apply E; right; exact I). destruct J as [<-|J]; [|exact J]. specialize (F a I). lia.
    + assert (J : In k (a :: l)) by (apply E; right; exact I). destruct J as [<-|J]; [|exact J]. specialize (F' a I). lia.
Qed.
Lemma seq_filter_sorted p n : forall s, StronglySorted Z.lt (map Z.of_nat (filter p (seq s n))) /\
  forall k, In k (map Z.of_nat (filter p (seq s n))) -> (Z.of_nat s <= k)%Z.
Proof.
  induction n as [|n IH]; intro s; [split; [constructor|intros k []]|]. cbn [seq filter].
  destruct (IH (S s)) as [A B]. destruct (p s).
  - cbn [map]. split; [constructor; [exact A|]|].
    + apply Forall_forall. intros k I. specialize (B k I). lia.
    + intros k [<-|I]; [lia|]. specialize (B k I). lia.
  - split; [exact A|]. intros k I. specialize (B k I). lia.
Qed.

(** ** Quantiles between sorted values *)
Lemma nth_sorted l : StronglySorted Rle l -> forall i j, (i <= j < length l)%nat -> nth i l 0 <= nth j l 0.
Proof.
  induction 1 as [|x l S IH F]; intros i j I; cbn in I; [lia|]. rewrite Forall_forall in F.
  destruct i, j; cbn; try lia; [lra| |apply IH; lia]. apply F. apply nth_In. lia.
Qed.
Lemma nth_default (l : list R) i d d' : (i < length l)%nat -> nth i l d = nth i l d'.
Proof. intro H. now apply nth_indep. Qed.

Definition spot (l : list R) (h : R) : R :=
  let i := Z.to_nat (Int_part h) in let low := nth i l 0 in low + (nth (S i) l low - low) * frac_part h.
Lemma Int_part_le a b : a <= b -> (Int_part a <= Int_part b)%Z.
Proof.
  intro H. destruct (base_Int_part a) as [A A']. destruct (base_Int_part b) as [B B'].
  assert (IZR (Int_part a) < IZR (Int_part b) + 1) by lra. rewrite <- plus_IZR in H0. apply lt_IZR in H0. lia.
Qed.
Lemma Int_part_bounds h m : 0 <= h <= INR m -> (0 <= Int_part h <= Z.of_nat m)%Z.
Proof.
  intro H. split.
  - change 0%Z with (Int_part 0) at 1 || idtac. destruct (base_Int_part h) as [A A'].
    assert (-1 < IZR (Int_part h)) by lra. change (-1) with (IZR (-1)) in H0. apply lt_IZR in H0. lia.
  - destruct (base_Int_part h) as [A A']. rewrite INR_IZR_INZ in H.
    assert (IZR (Int_part h) <= IZR (Z.of_nat m)) by lra. now apply le_IZR in H0.
Qed.
Lemma frac_bounds h : 0 <= frac_part h < 1.
Proof. destruct (base_fp h). lra. Qed.
Lemma spot_bounds l h : StronglySorted Rle l -> 0 <= h <= INR (length l - 1) -> (0 < length l)%nat ->
  let i := Z.to_nat (Int_part h) in
  nth i l 0 <= spot l h /\ ((S i < length l)%nat -> spot l h <= nth (S i) l 0) /\ ((S i >= length l)%nat -> spot l h = nth i l 0).
Proof.
  intros S H L i. unfold spot. fold i. cbv zeta. pose proof (frac_bounds h) as F.
  pose proof (Int_part_bounds _ _ H) as B.
  destruct (lt_dec (Datatypes.S i) (length l)) as [D|D].
  - rewrite (nth_default l (Datatypes.S i) _ 0 D).
    assert (M : nth i l 0 <= nth (Datatypes.S i) l 0) by (apply nth_sorted; [exact S|lia]).
    assert (0 <= (nth (Datatypes.S i) l 0 - nth i l 0) * frac_part h) by (apply Rmult_le_pos; lra).
    assert ((nth (Datatypes.S i) l 0 - nth i l 0) * frac_part h <= nth (Datatypes.S i) l 0 - nth i l 0).
    { rewrite <- (Rmult_1_r (nth (Datatypes.S i) l 0 - nth i l 0)) at 2. apply Rmult_le_compat_l; lra. }
    split; [lra|]. split; [intro; lra|intro; lia].
  - rewrite (nth_overflow l (nth i l 0)) by lia. split; [lra|]. split; [intro; lia|intro; lra].
Qed.
Lemma spot_mono l h1 h2 : StronglySorted Rle l -> 0 <= h1 -> h1 <= h2 -> h2 <= INR (length l - 1) -> (0 < length l)%nat ->
  spot l h1 <= spot l h2.
Proof.
  intros S H1 H12 H2 L.
  destruct (spot_bounds l h1 S ltac:(lra) L) as (A1 & B1 & C1). destruct (spot_bounds l h2 S ltac:(lra) L) as (A2 & B2 & C2).
  cbv zeta in *. pose proof (Int_part_le _ _ H12) as I. pose proof (Int_part_bounds h1 (length l - 1) ltac:(lra)).
  pose proof (Int_part_bounds h2 (length l - 1) ltac:(lra)).
  destruct (Z.eq_dec (Int_part h1) (Int_part h2)) as [E|E].
  - unfold spot. rewrite <- E. cbv zeta. set (i := Z.to_nat (Int_part h1)) in *.
    assert (frac_part h1 <= frac_part h2) by (unfold frac_part; rewrite <- E; lra).
    destruct (lt_dec (Datatypes.S i) (length l)) as [D|D].
    + rewrite (nth_default l (Datatypes.S i) _ 0 D). apply Rplus_le_compat_l. apply Rmult_le_compat_l; [|assumption].
      assert (nth i l 0 <= nth (Datatypes.S i) l 0) by (apply nth_sorted; [exact S|lia]). lra.
    + rewrite (nth_overflow l (nth i l 0)) by lia. lra.
  - apply (Rle_trans _ (nth (Datatypes.S (Z.to_nat (Int_part h1))) l 0)).
    + apply B1. lia.
    + apply (Rle_trans _ (nth (Z.to_nat (Int_part h2)) l 0)); [|exact A2]. apply nth_sorted; [exact S|lia].
Qed.
Lemma interpolated_spot l q : l <> [] -> interpolated_quantile l q = Some (spot l (q * INR (length l - 1))).
Proof. intro H. destruct l; [congruence|reflexivity]. Qed.
Lemma interpolated_mono l q1 q2 : StronglySorted Rle l -> l <> [] -> 0 <= q1 -> q1 <= q2 -> q2 <= 1 ->
  exists v1 v2, interpolated_quantile l q1 = Some v1 /\ interpolated_quantile l q2 = Some v2 /\ v1 <= v2.
Proof.
  intros S NE A B C. rewrite !interpolated_spot by exact NE. eexists _, _. split; [reflexivity|]. split; [reflexivity|].
  assert (0 <= INR (length l - 1)) by apply pos_INR.
  apply spot_mono; [exact S| | | |destruct l; [congruence|cbn; lia]].
  - now apply Rmult_le_pos.
  - now apply Rmult_le_compat_r.
  - rewrite <- (Rmult_1_l (INR (length l - 1))) at 2. now apply Rmult_le_compat_r.
Qed.

(** ** Groups *)
Lemma sigma_order : 0 < lower_2_sigma /\ lower_2_sigma <= lower_1_sigma /\ lower_1_sigma <= 1 / 2.
Proof. unfold lower_1_sigma, lower_2_sigma. lra. Qed.

Lemma spot_lies l h : l <> [] -> 0 <= h <= INR (length l - 1) -> lies_at l h (spot l h).
Proof.
  intros NE H. assert (L : (0 < length l)%nat) by (destruct l; [congruence|cbn; lia]).
  pose proof (Int_part_bounds _ _ H) as B. destruct (base_Int_part h) as [A A'].
  set (i := Z.to_nat (Int_part h)).
  assert (EI : INR i = IZR (Int_part h)) by (unfold i; rewrite INR_IZR_INZ, Z2Nat.id by lia; reflexivity).
  assert (Li : (i < length l)%nat) by (unfold i; lia).
  exists i, (nth i l 0), (nth (S i) l (nth i l 0)). split; [rewrite EI; lra|]. split; [apply nth_error_nth'; exact Li|]. split.
  - destruct (lt_dec (S i) (length l)) as [D|D]; [left; apply nth_error_nth'; exact D|right]. split; [lia|]. apply nth_overflow. lia.
  - unfold spot. fold i. cbv zeta. unfold frac_part. rewrite EI. reflexivity.
Qed.
Lemma interpolated_even sort rows level v : sorts sort -> rows <> [] -> 0 <= level <= 1 ->
  interpolated_quantile (map fst (sort rows)) level = Some v -> even_quantile level rows v.
Proof.
  intros HS NE HL E. destruct (HS rows) as [P S]. exists (map fst (sort rows)). split; [apply Permutation_map, P|]. 
  assert (NL : map fst (sort rows) <> []).
  { intro X. apply map_eq_nil in X. rewrite X in P. apply NE. now apply Permutation_nil. }
  split.
  - clear - S. induction S as [|r l S IH F]; cbn; constructor; auto.
    apply Forall_forall. intros x I. apply in_map_iff in I. destruct I as (r' & <- & I). rewrite Forall_forall in F. auto.
  - rewrite (interpolated_spot _ _ NL) in E. injection E as <-. apply spot_lies; auto.
    assert (0 <= INR (length (map fst (sort rows)) - 1)) by apply pos_INR. split; [apply Rmult_le_pos; lra|].
    rewrite <- (Rmult_1_l (INR (length (map fst (sort rows)) - 1))) at 2. apply Rmult_le_compat_r; lra.
Qed.
Lemma even_sigma sort rows : sorts sort -> rows <> [] -> sigma_errors even_quantile rows (b_errors (even_stats sort rows)).
Proof.
  intros HS NE. cbn [even_stats b_errors].
  assert (NL : map fst (sort rows) <> []).
  { destruct (HS rows) as [P _]. intro X. apply map_eq_nil in X. rewrite X in P. apply NE. now apply Permutation_nil. }
  unfold four_quantiles. cbn [map]. rewrite !(interpolated_spot _ _ NL). cbn [minus_opt].
  assert (Q : forall a, 0 <= a <= 1 -> even_quantile a rows (spot (map fst (sort rows)) (a * INR (length (map fst (sort rows)) - 1)))).
  { intros a H. apply interpolated_even with sort; auto. apply interpolated_spot, NL. }
  replace lower_1_sigma with (15865 / 100000) by (unfold lower_1_sigma; lra).
  replace lower_2_sigma with (2275 / 100000) by (unfold lower_2_sigma; lra).
  replace (1 - 15865 / 100000) with (84135 / 100000) by lra. replace (1 - 2275 / 100000) with (97725 / 100000) by lra.
  exists (spot (map fst (sort rows)) (1 / 2 * INR (length (map fst (sort rows)) - 1))). do 4 eexists.
  split; [apply Q; lra|]. split; [apply Q; lra|]. split; [apply Q; lra|]. split; [apply Q; lra|]. split; [apply Q; lra|]. reflexivity.
Qed.
Lemma weighted_sigma sort rows : sorts sort -> weighted_rows rows -> sigma_errors is_quantile rows (b_errors (weighted_stats sort rows)).
Proof.
  intros HS HW. cbn [weighted_stats b_errors]. rewrite median_half.
  destruct (weighted_quantile_ok sort (15865 / 100000) rows HS HW) as (a & Ea & Qa); [lra|].
  destruct (weighted_quantile_ok sort (84135 / 100000) rows HS HW) as (b & Eb & Qb); [lra|].
  destruct (weighted_quantile_ok sort (2275 / 100000) rows HS HW) as (c & Ec & Qc); [lra|].
  destruct (weighted_quantile_ok sort (97725 / 100000) rows HS HW) as (d & Ed & Qd); [lra|].
  destruct (weighted_quantile_ok sort (1 / 2) rows HS HW) as (m & Em & Qm); [lra|].
  unfold four_quantiles. cbn [map].
  replace lower_1_sigma with (15865 / 100000) by (unfold lower_1_sigma; lra).
  replace lower_2_sigma with (2275 / 100000) by (unfold lower_2_sigma; lra).
  replace (1 - 15865 / 100000) with (84135 / 100000) by lra. replace (1 - 2275 / 100000) with (97725 / 100000) by lra.
  rewrite Ea, Eb, Ec, Ed, Em. cbn [minus_opt]. exists m, a, b, c, d. auto 6.
Qed.
Lemma even_brackets sort rows : sorts sort -> rows <> [] -> brackets (b_errors (even_stats sort rows)).
Proof.
  intros HS NE. destruct (HS rows) as [P S]. cbn [even_stats b_errors].
  set (l := map fst (sort rows)).
  assert (SL : StronglySorted Rle l).
  { unfold l. clear - S. induction S as [|r l S IH F]; cbn; constructor; auto.
    apply Forall_forall. intros x I. apply in_map_iff in I. destruct I as (r' & <- & I). rewrite Forall_forall in F. auto. }
  assert (NL : l <> []).
  { unfold l. intro E. apply map_eq_nil in E. rewrite E in P. apply NE. now apply Permutation_nil. }
  pose proof sigma_order as (Z & A & B).
  destruct (interpolated_mono l lower_2_sigma lower_1_sigma SL NL) as (c & a & Ec & Ea & Lca); try lra.
  destruct (interpolated_mono l lower_1_sigma (1 / 2) SL NL) as (a' & m & Ea' & Em & Lam); try lra.
  destruct (interpolated_mono l (1 / 2) (1 - lower_1_sigma) SL NL) as (m' & b & Em' & Eb & Lmb); try lra.
  destruct (interpolated_mono l (1 - lower_1_sigma) (1 - lower_2_sigma) SL NL) as (b' & d & Eb' & Ed & Lbd); try lra.
  rewrite Ea in Ea'. rewrite Em in Em'. rewrite Eb in Eb'. injection Ea' as <-. injection Em' as <-. injection Eb' as <-.
  unfold four_quantiles. cbn [map]. rewrite Ea, Eb, Ec, Ed, Em. cbn [minus_opt].
  eexists _, _, _, _. split; [reflexivity|]. lra.
Qed.

Lemma weighted_brackets sort rows : sorts sort -> weighted_rows rows -> brackets (b_errors (weighted_stats sort rows)).
Proof.
  intros HS HW. cbn [weighted_stats b_errors]. rewrite median_half.
  pose proof sigma_order as (Z & A & B).
  destruct (weighted_quantile_ok sort lower_1_sigma rows HS HW) as (a & Ea & Qa); [lra|].
  destruct (weighted_quantile_ok sort (1 - lower_1_sigma) rows HS HW) as (b & Eb & Qb); [lra|].
  destruct (weighted_quantile_ok sort lower_2_sigma rows HS HW) as (c & Ec & Qc); [lra|].
  destruct (weighted_quantile_ok sort (1 - lower_2_sigma) rows HS HW) as (d & Ed & Qd); [lra|].
  destruct (weighted_quantile_ok sort (1 / 2) rows HS HW) as (m & Em & Qm); [lra|].
  unfold four_quantiles. cbn [map]. rewrite Ea, Eb, Ec, Ed, Em. cbn [minus_opt].
  eexists _, _, _, _. split; [reflexivity|].
  pose proof (quantile_monotone rows _ _ _ _ HW A Qc Qa). pose proof (quantile_monotone rows _ _ _ _ HW B Qa Qm).
  assert (1 / 2 <= 1 - lower_1_sigma) as B' by lra. assert (1 - lower_1_sigma <= 1 - lower_2_sigma) as A' by lra.
  pose proof (quantile_monotone rows _ _ _ _ HW B' Qm Qb). pose proof (quantile_monotone rows _ _ _ _ HW A' Qb Qd). lra.
Qed.

Lemma one_weight_all ws : one_weight ws = true -> exists c, forall w, In w ws -> w = c.
Proof.
  destruct ws as [|w r]; [discriminate|]. cbn. intro H. exists w. rewrite forallb_forall in H. intros v [<-|I]; [reflexivity|].
  specialize (H v I). apply Reqb_iff in H. congruence.
Qed.

Lemma even_mean rows c : rows <> [] -> (forall r, In r rows -> snd r = c) -> c <> 0 ->
  forall sort, b_mean (even_stats sort rows) = Some (mean_of rows).
Proof.
  intros NE H NZ sort. cbn [even_stats b_mean]. destruct rows as [|r0 rr] eqn:E; [congruence|]. rewrite <- E in *. clear E r0 rr.
  f_equal. unfold mean_of, total_weight.
  assert (A : sumR (map (fun r => fst r * snd r) rows) = c * sumR (map fst rows)).
  { clear NE. induction rows as [|r l IH]; cbn [map]; [cbn; lra|]. change (fst r * snd r + sumR (map (fun r0 => fst r0 * snd r0) l) = c * (fst r + sumR (map fst l))).
    rewrite IH by (intros x I; apply H; right; exact I). rewrite (H r) by (left; reflexivity). lra. }
  assert (B : sumR (map snd rows) = c * INR (length rows)).
  { clear NE A. induction rows as [|r l IH]; [cbn; lra|]. cbn [map length]. rewrite S_INR. change (snd r + sumR (map snd l) = c * (INR (length l) + 1)).
    rewrite IH by (intros x I; apply H; right; exact I). rewrite (H r) by (left; reflexivity). lra. }
  assert (NN : INR (length rows) <> 0) by (apply not_0_INR; destruct rows; [congruence|cbn; lia]).
  rewrite A, B. match goal with |- ?x / ?n = _ => enough (forall s, s / n = c * s / (c * n)) by auto end.
  intro s. field. split; [exact NN|exact NZ].
Qed.

Lemma members_group k bins y w : group_rows k bins (combine y w) = bin_members k bins y w.
Proof. apply group_rows_filter. Qed.
Lemma member_weights k bins y w r : In r (bin_members k bins y w) -> In (snd r) w.
Proof.
  unfold bin_members. intro I. apply in_map_iff in I. destruct I as ([k' [a b]] & <- & I). apply filter_In in I. destruct I as [I _].
  apply in_combine_r in I. now apply in_combine_r in I.
Qed.
Lemma members_nonempty k bins y w : In k bins -> length y = length bins -> length w = length bins -> bin_members k bins y w <> [].
Proof.
  unfold bin_members. revert y w. induction bins as [|b bins IH]; intros y w I L L'; [destruct I|].
  destruct y as [|a y]; [cbn in L; lia|]. destruct w as [|c w]; [cbn in L'; lia|]. cbn [combine filter fst].
  destruct (Z.eqb b k) eqn:E; [cbn; discriminate|]. destruct I as [->|I]; [rewrite Z.eqb_refl in E; discriminate|].
  apply IH; [exact I|cbn in L; lia|cbn in L'; lia].
Qed.
Lemma sum_pos rows : rows <> [] -> (forall r : qrow, In r rows -> 0 < snd r) -> 0 < total_weight rows.
Proof.
  unfold total_weight. induction rows as [|r l IH]; [congruence|]. intros _ H. cbn [map]. change (0 < snd r + sumR (map snd l)).
  pose proof (H r (or_introl eq_refl)). destruct l as [|r' l]; [cbn; lra|]. assert (0 < sumR (map snd (r' :: l))); [|lra].
  apply IH; [discriminate|]. intros x I. apply H. right; exact I.
Qed.
Lemma weights_positive_rows rows : rows <> [] -> (forall r : qrow, In r rows -> 0 < snd r) -> weighted_rows rows.
Proof. intros NE H. split; [intros r I; left; auto|now apply sum_pos]. Qed.
Lemma snd_combine (y w : list R) : length y = length w -> map snd (combine y w) = w.
Proof. revert w. induction y as [|a y IH]; intros [|b w] L; cbn in L; try lia; [reflexivity|]. cbn. f_equal. apply IH. lia. Qed.
Lemma one_weight_iff ws : ws <> [] -> (one_weight ws = true <-> all_equal ws).
Proof.
  destruct ws as [|w r]; [congruence|]. intros _. cbn. rewrite forallb_forall. unfold all_equal. split.
  - intros H a b A B. assert (forall x, In x (w :: r) -> x = w).
    { intros x [<-|I]; [reflexivity|]. specialize (H x I). apply Reqb_iff in H. congruence. }
    rewrite (H0 a A), (H0 b B). reflexivity.
  - intros H x I. apply Reqb_iff. apply H; [left; reflexivity|right; exact I].
Qed.

Lemma parts_exist pred lo hi : range_of pred lo hi -> exists bins : list nat,
  map (digitize (linspace lo hi (100 + 1))) pred = map Z.of_nat bins /\ Forall2 (in_part lo hi 100) pred bins.
Proof.
  intros (_ & _ & H). induction pred as [|v l IH].
  - exists []. split; [reflexivity|constructor].
  - destruct IH as (bins & E & F); [intros p I; apply H; right; exact I|].
    destruct (digitize_part lo hi 100 v ltac:(lia) (H v (or_introl eq_refl))) as (b & D & P).
    exists (b :: bins). split; [cbn [map]; congruence|constructor; assumption].
Qed.
Lemma has_mean_keys (keys : list Z) (f : Z -> R) k : has_mean (map (fun k => (k, Some (f k))) keys) k = true <-> In k keys.
Proof.
  unfold has_mean. rewrite existsb_exists. split.
  - intros (e & I & H). apply in_map_iff in I. destruct I as (x & <- & I). cbn in H. rewrite andb_true_r in H. apply Z.eqb_eq in H. congruence.
  - intro I. exists (k, Some (f k)). split; [apply in_map_iff; exists k; auto|]. cbn. now rewrite Z.eqb_refl.
Qed.
Lemma Forall2_right {A B} (P : A -> B -> Prop) (l : list A) (l' : list B) : Forall2 P l l' -> forall b, In b l' -> exists a, In a l /\ P a b.
Proof. induction 1 as [|x y l l' H F IH]; intros b I; [destruct I|]. destruct I as [<-|I]; [exists x; split; [left; reflexivity|exact H]|]. destruct (IH b I) as (a & J & Q). exists a. split; [right; exact J|exact Q]. Qed.
Lemma kept_centres lo hi (bins : list nat) (keys : list Z) (f : Z -> R) pred : Forall2 (in_part lo hi 100) pred bins ->
  StronglySorted Z.lt keys -> (forall k, In k keys <-> In k (map Z.of_nat bins)) ->
  keep (map (fun k => has_mean (map (fun k => (k, Some (f k))) keys) (Z.of_nat k)) (seq 1 100)) (map (middle lo hi 100) (seq 1 100))
  = map (fun k => middle lo hi 100 (Z.to_nat k)) keys.
Proof.
  intros F S K. rewrite keep_map_seq.
  set (p := fun k => has_mean (map (fun k0 => (k0, Some (f k0))) keys) (Z.of_nat k)).
  assert (E : keys = map Z.of_nat (filter p (seq 1 100))).
  { apply sorted_unique; [exact S|apply seq_filter_sorted|]. intro k. split.
    - intro I. pose proof I as J. apply K in J. apply in_map_iff in J. destruct J as (b & <- & J).
      apply in_map. apply filter_In. destruct (Forall2_right _ _ _ F b J) as (v & _ & (B & _)). split; [apply in_seq; lia|].
      unfold p. now apply has_mean_keys.
    - intro I. apply in_map_iff in I. destruct I as (b & <- & I). apply filter_In in I. destruct I as [_ I]. now apply has_mean_keys in I. }
  rewrite E at 1. rewrite map_map. apply map_ext. intro k. now rewrite Nat2Z.id.
Qed.

Lemma binary_iff y : forallb (fun v => Reqb v 0 || Reqb v 1) y = true <-> binary y.
Proof.
  rewrite forallb_forall. unfold binary. split; intros H v I; specialize (H v I).
  - apply orb_true_iff in H. destruct H as [H|H]; apply Reqb_iff in H; auto.
  - apply orb_true_iff. destruct H as [H|H]; [left|right]; now apply Reqb_iff.
Qed.

Section Histogram.
Variables (sort : list qrow -> list qrow) (y pred w : list R).
Hypotheses (HS : sorts sort) (NE : pred <> []) (L : length y = length pred) (L' : length w = length pred)
  (W : forall v, In v w -> 0 < v).

Lemma members_ok zb : length zb = length pred -> forall k, In k (group_keys zb) ->
  bin_members k zb y w <> [] /\ forall r, In r (bin_members k zb y w) -> 0 < snd r.
Proof.
  intros LZ k I. destruct (group_keys_ok zb) as [SK IK]. split; [apply members_nonempty; [now apply IK|lia|lia]|].
  intros r J. apply W. eapply member_weights. exact J.
Qed.
Lemma stats_ok zb : length zb = length pred ->
  exists stat, calc_means_medians sort zb (combine y w) = map (fun k => (k, stat k)) (group_keys zb) /\
     (forall k, In k (group_keys zb) -> b_mean (stat k) = Some (mean_of (bin_members k zb y w)) /\ brackets (b_errors (stat k)) /\
       (all_equal w -> sigma_errors even_quantile (bin_members k zb y w) (b_errors (stat k))) /\
       (~ all_equal w -> sigma_errors is_quantile (bin_members k zb y w) (b_errors (stat k))) /\
       (all_equal w -> b_count (stat k) = INR (length (bin_members k zb y w))) /\
       (~ all_equal w -> b_count (stat k) = total_weight (bin_members k zb y w))).
Proof.
  intro LZ.
  assert (SN : map snd (combine y w) = w) by (apply snd_combine; lia).
  assert (WN : w <> []) by (destruct w; [destruct pred; [congruence|cbn in L'; lia]|discriminate]).
  unfold calc_means_medians. rewrite SN. pose proof (one_weight_iff w WN) as OW. destruct (one_weight w) eqn:E.
  - eexists (fun k => even_stats sort (group_rows k zb (combine y w))). split; [reflexivity|]. intros k I. rewrite members_group.
    destruct (members_ok zb LZ k I) as [MN MP].
    destruct (one_weight_all w E) as [c C]. split; [|split; [|split; [|split; [|split]]]].
    + apply even_mean with c; [exact MN|intros r J; apply C; eapply member_weights; exact J|].
      destruct w as [|w0 w']; [congruence|]. specialize (W w0 (or_introl eq_refl)). specialize (C w0 (or_introl eq_refl)). lra.
    + now apply even_brackets.
    + intros _. now apply even_sigma.
    + intro H. exfalso. apply H. now apply OW.
    + reflexivity.
    + intro H. exfalso. apply H. now apply OW.
  - eexists (fun k => weighted_stats sort (group_rows k zb (combine y w))). split; [reflexivity|]. intros k I. rewrite members_group.
    destruct (members_ok zb LZ k I) as [MN MP].
    pose proof (weights_positive_rows _ MN MP) as WR. split; [|split; [|split; [|split; [|split]]]].
    + cbn [weighted_stats b_mean]. unfold weighted_mean_of, mean_of. fold (total_weight (bin_members k zb y w)). destruct WR as [_ WR].
      rewrite (proj2 (Reqb_false_iff _ _)) by lra. reflexivity.
    + apply weighted_brackets; assumption.
    + intro H. apply OW in H. discriminate.
    + intros _. apply weighted_sigma; assumption.
    + intro H. apply OW in H. discriminate.
    + reflexivity.
Qed.

Lemma histogram_ok : exists h lo hi bins,
  in_sample_histograms sort y pred w None = Some h /\ range_of pred lo hi /\ Forall2 (in_part lo hi 100) pred bins /\
  shows (map Z.of_nat bins) lo hi y w mean_of h /\
  (binary y -> h_errors h = None) /\
  (~ binary y -> exists errors, h_errors h = Some errors /\ map fst errors = map fst (h_means h) /\
                                Forall (fun e => brackets (snd e) /\
      (all_equal w -> sigma_errors even_quantile (bin_members (fst e) (map Z.of_nat bins) y w) (snd e)) /\
      (~ all_equal w -> sigma_errors is_quantile (bin_members (fst e) (map Z.of_nat bins) y w) (snd e))) errors).
Proof.
  destruct (range_exists pred NE) as (lo & hi & Em & EM & RG).
  destruct (parts_exist pred lo hi RG) as (bins & EB & F). assert (LB : length pred = length bins) by (clear - F; induction F; cbn; congruence).
  unfold in_sample_histograms, calc_linear_bins. rewrite Em, EM. cbv zeta. rewrite centres_middle by lia. rewrite EB.
  eexists _, lo, hi, bins. split; [reflexivity|]. split; [exact RG|]. split; [exact F|].
  set (zb := map Z.of_nat bins).
  assert (LZ : length zb = length pred) by (unfold zb; rewrite map_length; lia).
  destruct (group_keys_ok zb) as [SK IK].
  destruct (stats_ok zb LZ) as (stat & -> & SP). rewrite !map_map. cbn [fst snd].
  assert (EM2 : map (fun k => (k, b_mean (stat k))) (group_keys zb) = map (fun k => (k, Some (mean_of (bin_members k zb y w)))) (group_keys zb)).
  { apply map_ext_in. intros k I. now rewrite (proj1 (SP k I)). }
  rewrite EM2. cbn [h_means h_centres h_errors h_counts]. split; [|split].
  - exists (group_keys zb). cbn [h_means h_centres h_errors h_counts]. split; [exact SK|]. split; [exact IK|]. split; [reflexivity|]. split.
    + apply (kept_centres lo hi bins (group_keys zb) _ pred F SK IK).
    + split; intro H; apply map_ext_in; intros k I; destruct (SP k I) as (_ & _ & _ & _ & A & B); [rewrite (A H)|rewrite (B H)]; reflexivity.
  - intro H. apply binary_iff in H. now rewrite H.
  - intro H. destruct (forallb _ y) eqn:E; [exfalso; apply H; now apply binary_iff|]. eexists. split; [reflexivity|].
    rewrite !map_map. cbn [fst]. split; [reflexivity|]. apply Forall_forall. intros e I. apply in_map_iff in I. destruct I as (k & <- & I).
    cbn [fst snd]. destruct (SP k I) as (_ & A & B & C & _). auto.
Qed.

Lemma histogram_quantile_ok q : 0 < q <= 1 -> exists h lo hi bins value,
  in_sample_histograms sort y pred w (Some q) = Some h /\ range_of pred lo hi /\ Forall2 (in_part lo hi 100) pred bins /\
  (forall rows, weighted_rows rows -> is_quantile q rows (value rows)) /\
  shows (map Z.of_nat bins) lo hi y w value h /\ h_errors h = None.
Proof.
  intro HQ. destruct (range_exists pred NE) as (lo & hi & Em & EM & RG).
  destruct (parts_exist pred lo hi RG) as (bins & EB & F). assert (LB : length pred = length bins) by (clear - F; induction F; cbn; congruence).
  unfold in_sample_histograms, calc_linear_bins. rewrite Em, EM. cbv zeta. rewrite centres_middle by lia. rewrite EB.
  set (value := fun rows => match weighted_quantile sort q rows with Some v => v | None => 0 end).
  eexists _, lo, hi, bins, value. split; [reflexivity|]. split; [exact RG|]. split; [exact F|].
  split. { intros rows WR. unfold value. destruct (weighted_quantile_ok sort q rows HS WR HQ) as (v & -> & Q). exact Q. }
  set (zb := map Z.of_nat bins).
  assert (LZ : length zb = length pred) by (unfold zb; rewrite map_length; lia).
  destruct (group_keys_ok zb) as [SK IK].
  destruct (stats_ok zb LZ) as (stat & -> & SP). rewrite !map_map. cbn [fst snd].
  assert (EM2 : calc_weighted_quantile sort zb (combine y w) q = map (fun k => (k, Some (value (bin_members k zb y w)))) (group_keys zb)).
  { apply map_ext_in. intros k I. rewrite members_group. unfold value. destruct (members_ok zb LZ k I) as [MN MP].
    destruct (weighted_quantile_ok sort q _ HS (weights_positive_rows _ MN MP) HQ) as (v & -> & _). reflexivity. }
  rewrite EM2. cbn [h_means h_centres h_errors h_counts]. split; [|destruct (forallb _ y); reflexivity].
  exists (group_keys zb). cbn [h_means h_centres h_errors h_counts]. split; [exact SK|]. split; [exact IK|]. split; [reflexivity|]. split.
  - apply (kept_centres lo hi bins (group_keys zb) _ pred F SK IK).
  - split; intro H; apply map_ext_in; intros k I; destruct (SP k I) as (_ & _ & _ & _ & A & B); [rewrite (A H)|rewrite (B H)]; reflexivity.
Qed.
End Histogram.
