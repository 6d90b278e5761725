(** Facts about the continuous quantile and the bins of the generic loss. *)
From Coq Require Import ZArith List Bool Reals Permutation Sorted Lia Lra.
From Verif.Model Require Import Train Link Quantile.
From Verif.Spec Require Import QuantileSpec.
From Verif.Proofs Require Import TrainFacts TrainExamples TrainBounds LinkFacts OrthoFacts QuantileFacts.
Import ListNotations.
Local Open Scope R_scope.

(** ** Positions *)
Fixpoint pos (v : R) (k : nat) (l : list R) : list nat :=
  match l with [] => [] | x :: r => if Reqb x v then k :: pos v (S k) r else pos v (S k) r end.
Lemma positions_pos v l : positions v l = pos v 0 l.
Proof.
  unfold positions. assert (G : forall l k, filter (fun i => Reqb (nth (i - k) l 0) v) (seq k (length l)) = pos v k l).
  { clear l. induction l as [|x l IH]; intro k; cbn [length seq filter pos]; [reflexivity|].
    rewrite Nat.sub_diag. change (nth 0 (x :: l) 0) with x.
    assert (E : filter (fun i => Reqb (nth (i - k) (x :: l) 0) v) (seq (S k) (length l)) = pos v (S k) l).
    { rewrite <- IH. apply filter_ext_in. intros i I. apply in_seq in I. replace (i - k)%nat with (S (i - S k)) by lia. reflexivity. }
    rewrite E. reflexivity. }
  rewrite <- G. apply filter_ext. intro i. now rewrite Nat.sub_0_r.
Qed.
Lemma pos_app v a : forall k b, pos v k (a ++ b) = pos v k a ++ pos v (k + length a) b.
Proof.
  induction a as [|x a IH]; intros k b; cbn [app pos length]; [now rewrite Nat.add_0_r|].
  rewrite IH. replace (S k + length a)%nat with (k + S (length a))%nat by lia. now destruct (Reqb x v).
Qed.
Lemma pos_none v a : forall k, (forall x, In x a -> x <> v) -> pos v k a = [].
Proof.
  induction a as [|x a IH]; intros k H; cbn [pos]; [reflexivity|].
  rewrite (proj2 (Reqb_false_iff x v)) by (apply H; now left). apply IH. intros; apply H; now right.
Qed.
Lemma pos_repeat v n : forall k, pos v k (repeat v n) = seq k n.
Proof.
  induction n as [|n IH]; intro k; cbn [repeat pos seq]; [reflexivity|]. rewrite (proj2 (Reqb_iff v v) eq_refl). now rewrite IH.
Qed.

Lemma sorted_blocks v l : StronglySorted Rle l ->
  exists a n b, l = a ++ repeat v n ++ b /\ (forall x, In x a -> x < v) /\ (forall x, In x b -> v < x).
Proof.
  induction l as [|x l IH]; intro S; [exists [], 0%nat, []; cbn; intuition|].
  inversion S as [|? ? S' F]; subst. rewrite Forall_forall in F. destruct (IH S') as (a & n & b & E & A & B).
  destruct (Rtotal_order x v) as [L|[->|G]].
  - exists (x :: a), n, b. split; [now rewrite E|]. split; [|exact B]. intros z [<-|I]; [exact L|now apply A].
  - assert (a = []).
    { destruct a as [|z a]; [reflexivity|]. exfalso. assert (In z l) by (rewrite E; now left). pose proof (F z H). pose proof (A z (or_introl eq_refl)). lra. }
    subst a. exists [], (1 + n)%nat, b. split; [now rewrite E|]. split; [intros ? []|exact B].
  - exists [], 0%nat, (x :: l). split; [reflexivity|]. split; [intros ? []|]. intros z [<-|I]; [exact G|]. pose proof (F z I). lra.
Qed.
Lemma sorted_fst s : StronglySorted (fun a b : qrow => fst a <= fst b) s -> StronglySorted Rle (map fst s).
Proof. induction 1 as [|r s S IH F]; cbn; constructor; [exact IH|]. rewrite Forall_map. exact F. Qed.

Lemma last_seq a n : (0 < n)%nat -> last (seq a n) 0%nat = (a + n - 1)%nat.
Proof.
  intro H. destruct n as [|n]; [lia|]. rewrite seq_S. rewrite last_last. lia.
Qed.
Lemma positions_blocks v l a n b : l = a ++ repeat v n ++ b -> (forall x, In x a -> x < v) -> (forall x, In x b -> v < x) ->
  positions v l = seq (length a) n.
Proof.
  intros -> A B. rewrite positions_pos, !pos_app, pos_repeat.
  rewrite (pos_none v a) by (intros x I; pose proof (A x I); lra).
  rewrite (pos_none v b) by (intros x I; pose proof (B x I); lra). now rewrite app_nil_r.
Qed.

(** ** The continuous quantile *)
Lemma continuous_some sort q rows : sorts sort -> weighted_rows rows -> 0 < q <= 1 ->
  exists v, is_quantile q rows v /\ exists a n b, map fst (sort rows) = a ++ repeat v n ++ b /\ (0 < n)%nat /\
    (forall x, In x a -> x < v) /\ (forall x, In x b -> v < x) /\
    continuous_quantile sort rows q =
    Some (if Nat.leb 2 n then v + (IZR (trunc (total_weight rows * q)) - INR (length a)) / (INR n - 1) else v).
Proof.
  intros HS HW Hq. destruct (HS rows) as [P S].
  assert (HW' : weighted_rows (sort rows)).
  { destruct HW as [H W]. split; [|now rewrite (total_perm _ _ P)]. intros r I. apply H. now apply (Permutation_in r P). }
  assert (NE : sort rows <> []) by (intro E; rewrite E in HW'; destruct HW' as [_ W]; cbn in W; lra).
  assert (TW : total_weight (sort rows) = total_weight rows) by (now apply total_perm).
  destruct (reaching_some (total_weight (sort rows) * q) (sort rows) 0 NE) as (v & l & E).
  { destruct HW' as [_ W]. nra. }
  pose proof (reaching_quantile (sort rows) q v l S HW' (proj1 Hq) E) as Q.
  exists v. split; [now apply (quantile_perm q (sort rows))|].
  destruct (sorted_blocks v _ (sorted_fst _ S)) as (a & n & b & EB & A & B).
  exists a, n, b. split; [exact EB|].
  assert (Hn : (0 < n)%nat).
  { destruct n; [|lia]. exfalso. destruct Q as [I _]. rewrite EB in I. cbn in I. apply in_app_or in I. destruct I as [I|I]; [pose proof (A v I)|pose proof (B v I)]; lra. }
  split; [exact Hn|]. split; [exact A|]. split; [exact B|].
  unfold continuous_quantile. cbv zeta. fold (total_weight rows). rewrite <- TW at 1. rewrite E.
  rewrite (positions_blocks v _ a n b EB A B). rewrite last_seq by exact Hn.
  assert (H0 : hd 0%nat (seq (length a) n) = length a) by (destruct n; [lia|reflexivity]).
  rewrite H0. f_equal. destruct (Nat.leb_spec 2 n) as [H2|H2].
  - rewrite (proj2 (Nat.ltb_lt _ _)) by lia. rewrite minus_INR by lia. rewrite plus_INR. change (INR 1) with 1.
    replace (INR (length a) + INR n - 1 - INR (length a)) with (INR n - 1) by ring. reflexivity.
  - rewrite (proj2 (Nat.ltb_ge _ _)) by lia. reflexivity.
Qed.

(** Without ties it is the weighted quantile. *)
Lemma continuous_distinct sort q rows : sorts sort -> weighted_rows rows -> 0 < q <= 1 -> NoDup (map fst rows) ->
  exists v, continuous_quantile sort rows q = Some v /\ is_quantile q rows v.
Proof.
  intros HS HW Hq ND. destruct (continuous_some sort q rows HS HW Hq) as (v & Q & a & n & b & EB & Hn & _ & _ & ->).
  exists v. split; [|exact Q].
  assert (ND' : NoDup (map fst (sort rows))).
  { apply (Permutation_NoDup (l := map fst rows)); [|exact ND]. apply Permutation_map. symmetry. apply HS. }
  rewrite EB in ND'. destruct n as [|[|n]]; [lia|reflexivity|]. exfalso. clear - ND'.
  induction a as [|x a IH]; cbn in ND'; inversion ND' as [|? ? N ND'']; subst; [apply N; now left|now apply IH].
Qed.

Lemma trunc_nonneg x : 0 <= x -> IZR (trunc x) <= x < IZR (trunc x) + 1.
Proof.
  intro H. unfold trunc. rewrite (proj2 (Rleb_iff 0 x) H). destruct (base_Int_part x). lra.
Qed.

Lemma even_below u v a n b rows : (forall x, In x a -> x < v) -> (forall x, In x b -> v < x) ->
  Permutation (a ++ repeat v n ++ b) (map fst rows) -> (forall r, In r rows -> snd r = u) ->
  weight_below v rows = u * INR (length a) /\ weight_upto v rows = u * (INR (length a) + INR n).
Proof.
  intros A B P U.
  assert (E1 : weight_below v rows = sumR (map (fun y => if Rlt_dec y v then u else 0) (map fst rows))).
  { unfold weight_below. rewrite map_map. apply sumR_map_ext_in. intros r I. now rewrite (U r I). }
  assert (E2 : weight_upto v rows = sumR (map (fun y => if Rle_dec y v then u else 0) (map fst rows))).
  { unfold weight_upto. rewrite map_map. apply sumR_map_ext_in. intros r I. now rewrite (U r I). }
  rewrite E1, E2. rewrite <- !(sumR_perm _ _ (Permutation_map _ P)). rewrite !map_app.
  assert (SA : forall l m, sumR (l ++ m) = sumR l + sumR m) by (intros l m; induction l; cbn [app sumR]; lra).
  assert (SC : forall (f : R -> R) c l, (forall x, In x l -> f x = c) -> sumR (map f l) = c * INR (length l)).
  { intros f c l H. induction l as [|x l IH]; [cbn; ring|]. cbn [map sumR length]. rewrite S_INR, (H x (or_introl eq_refl)), IH; [ring|]. intros; apply H; now right. }
  rewrite !SA.
  rewrite (SC (fun y => if Rlt_dec y v then u else 0) u a), (SC _ 0 (repeat v n)), (SC _ 0 b),
          (SC (fun y => if Rle_dec y v then u else 0) u a), (SC (fun y => if Rle_dec y v then u else 0) u (repeat v n)), (SC (fun y => if Rle_dec y v then u else 0) 0 b).
  - rewrite repeat_length. split; ring.
  - intros x I. pose proof (B x I). destruct (Rle_dec x v); lra.
  - intros x I. apply repeat_spec in I. subst. destruct (Rle_dec v v); lra.
  - intros x I. pose proof (A x I). destruct (Rle_dec x v); lra.
  - intros x I. pose proof (B x I). destruct (Rlt_dec x v); lra.
  - intros x I. apply repeat_spec in I. subst. destruct (Rlt_dec v v); lra.
  - intros x I. pose proof (A x I). destruct (Rlt_dec x v); lra.
Qed.

(** With unit weights it exceeds the weighted quantile by at most 2. *)
Lemma continuous_unit sort q rows : sorts sort -> rows <> [] -> (forall r, In r rows -> snd r = 1) -> 0 < q <= 1 ->
  exists v c, is_quantile q rows v /\ continuous_quantile sort rows q = Some c /\ v <= c <= v + 2.
Proof.
  intros HS NE U Hq.
  assert (HW : weighted_rows rows).
  { split; [intros r I; rewrite (U r I); lra|]. destruct rows as [|r rows]; [congruence|]. unfold total_weight. cbn [map sumR].
    rewrite (U r (or_introl eq_refl)). assert (0 <= sumR (map snd rows)); [|lra]. apply sumR_nonneg. intros r' I. rewrite (U r' (or_intror I)). lra. }
  destruct (continuous_some sort q rows HS HW Hq) as (v & Q & a & n & b & EB & Hn & A & B & ->).
  do 2 eexists. split; [exact Q|]. split; [reflexivity|]. destruct (Nat.leb_spec 2 n) as [H2|H2]; [|lra].
  destruct (even_below 1 v a n b rows A B) as [E1 E2]; [rewrite <- EB; apply Permutation_map; apply HS|exact U|].
  destruct Q as (_ & Q1 & Q2). rewrite E1, Rmult_1_l in Q2. rewrite E2, Rmult_1_l in Q1.
  set (x := total_weight rows * q) in *. assert (Hx : INR (length a) < x <= INR (length a) + INR n) by (unfold x; lra).
  pose proof (pos_INR (length a)). pose proof (trunc_nonneg x ltac:(lra)) as T.
  assert (T1 : INR (length a) <= IZR (trunc x)).
  { rewrite INR_IZR_INZ in *. apply IZR_le. assert (Z.of_nat (length a) < trunc x + 1)%Z; [|lia]. apply lt_IZR. rewrite plus_IZR. lra. }
  assert (N2 : 2 <= INR n) by (change 2 with (INR 2); now apply le_INR).
  assert (D : 0 <= (IZR (trunc x) - INR (length a)) / (INR n - 1) <= 2).
  { split.
    - apply Rmult_le_pos; [lra|]. left. apply Rinv_0_lt_compat. lra.
    - apply (Rmult_le_reg_r (INR n - 1)); [lra|]. unfold Rdiv. rewrite Rmult_assoc, Rinv_l by lra. lra. }
  lra.
Qed.

(** ** Insertion of the empty bins *)
Section Bins.
Context {row : Type}.
Implicit Types rows : list (nat * row).

Lemma rows_of_nil b rows : ~ In b (map fst rows) <-> rows_of b rows = [].
Proof.
  unfold rows_of. induction rows as [|[k r] rows IH]; cbn; [intuition|].
  destruct (Nat.eqb_spec k b) as [->|N]; cbn; [split; intro H; [tauto|discriminate]|]. rewrite <- IH. intuition.
Qed.
Lemma rows_of_perm b rows rows' : Permutation rows rows' -> Permutation (rows_of b rows) (rows_of b rows').
Proof.
  intro P. unfold rows_of. apply Permutation_map. induction P as [|x l l' P IH|x y l|l l' l'' P1 IH1 P2 IH2]; cbn.
  - constructor.
  - destruct (Nat.eqb (fst x) b); [now constructor|exact IH].
  - destruct (Nat.eqb (fst x) b), (Nat.eqb (fst y) b); try reflexivity. constructor.
  - now transitivity (filter (fun p => Nat.eqb (fst p) b) l').
Qed.

Lemma split_sorted rows : StronglySorted le (map fst rows) ->
  StronglySorted lt (map fst (split_bins rows)) /\
  (forall b, In b (map fst (split_bins rows)) <-> In b (map fst rows)) /\
  map snd (split_bins rows) = map (fun b => rows_of b rows) (map fst (split_bins rows)).
Proof.
  induction rows as [|[k r] rows IH]; intro S; [cbn; repeat split; try constructor; intuition|].
  cbn [map fst] in S. inversion S as [|? ? S' F]; subst. destruct (IH S') as (A & B & C). rewrite Forall_forall in F.
  cbn [split_bins]. destruct (split_bins rows) as [|[k' g] gs] eqn:E.
  - cbn. assert (rows = []).
    { destruct rows as [|[k0 r0] rows]; [reflexivity|]. exfalso. cbn in B. apply (B k0). now left. }
    subst rows. split; [repeat constructor|]. split; [intuition|]. cbn. unfold rows_of. cbn. now rewrite Nat.eqb_refl.
  - cbn [map fst snd] in *. injection C as Cg Cs. inversion A as [|? ? A' F']; subst. rewrite Forall_forall in F'.
    assert (Tl : forall b, In b (map fst gs) -> b <> k -> rows_of b ((k, r) :: rows) = rows_of b rows).
    { intros b _ N. unfold rows_of. cbn. destruct (Nat.eqb_spec k b); [congruence|reflexivity]. }
    destruct (Nat.eqb_spec k k') as [->|N]; cbn [map fst snd].
    + split; [exact A|]. split.
      { intro b. rewrite (B b). cbn [In]. split; [now right|]. intros [<-|I]; [apply (B k'); now left|exact I]. }
      f_equal; [unfold rows_of; cbn; rewrite Nat.eqb_refl; reflexivity|].
      rewrite Cs. apply map_ext_in. intros b I. symmetry. apply Tl; [exact I|]. pose proof (F' b I). lia.
    + assert (Lt : forall b, In b (k' :: map fst gs) -> (k < b)%nat).
      { intros b [<-|I]; [|pose proof (F' b I)]; assert (k <= k')%nat by (apply F; apply B; now left); lia. }
      split; [constructor; [exact A|]; apply Forall_forall; exact Lt|].
      split; [intro b; cbn [In]; rewrite <- (B b); cbn [In]; tauto|].
      f_equal.
      * unfold rows_of. cbn [filter fst]. rewrite Nat.eqb_refl. cbn [map snd]. f_equal. fold (rows_of k rows). symmetry.
        apply rows_of_nil. intro I. apply B in I. pose proof (Lt k I). lia.
      * f_equal; [|rewrite Cs; apply map_ext_in; intros b I; symmetry; apply Tl; [exact I|pose proof (Lt b (or_intror I)); lia]].
        unfold rows_of. cbn [filter fst]. rewrite (proj2 (Nat.eqb_neq k k') N). reflexivity.
Qed.

Lemma insert_here {A} (pre : list A) x l : insert_at (length pre) x (pre ++ l) = (pre ++ [x]) ++ l.
Proof.
  unfold insert_at. rewrite firstn_app, Nat.sub_diag, firstn_all, firstn_O, app_nil_r.
  rewrite skipn_app, Nat.sub_diag, skipn_all. cbn. now rewrite <- app_assoc.
Qed.

Lemma insert_ascending (f : nat -> list row) m : forall k pre P E, length pre = k ->
  StronglySorted lt P -> StronglySorted lt E ->
  (forall b, In b P \/ In b E <-> (k <= b < k + m)%nat) -> (forall b, In b P -> In b E -> False) ->
  (forall b, In b E -> f b = []) ->
  fold_left (fun l i => insert_at i [] l) E (pre ++ map f P) = pre ++ map f (seq k m).
Proof.
  induction m as [|m IH]; intros k pre P E Lp SP SE U D Z.
  - assert (P = []) by (destruct P as [|x P]; [reflexivity|]; assert (k <= x < k + 0)%nat by (apply U; left; now left); lia).
    assert (E = []) by (destruct E as [|x E]; [reflexivity|]; assert (k <= x < k + 0)%nat by (apply U; right; now left); lia).
    now subst.
  - assert (Hk : In k P \/ In k E) by (apply U; lia).
    assert (HdP : forall x l, P = x :: l -> In k P -> x = k).
    { intros x l -> I. assert (k <= x)%nat by (apply (U x); left; now left). apply StronglySorted_inv in SP. destruct SP as [_ F]. rewrite Forall_forall in F.
      destruct I as [->|I]; [reflexivity|]. pose proof (F k I). lia. }
    assert (HdE : forall x l, E = x :: l -> In k E -> x = k).
    { intros x l -> I. assert (k <= x)%nat by (apply (U x); right; now left). apply StronglySorted_inv in SE. destruct SE as [_ F]. rewrite Forall_forall in F.
      destruct I as [->|I]; [reflexivity|]. pose proof (F k I). lia. }
    destruct Hk as [I|I].
    + destruct P as [|x P]; [destruct I|]. pose proof (HdP x P eq_refl I) as Ex. subst x. clear HdP HdE I.
      cbn [map seq]. replace (pre ++ f k :: map f P) with ((pre ++ [f k]) ++ map f P) by (now rewrite <- app_assoc).
      apply StronglySorted_inv in SP. destruct SP as [SP' F]. rewrite Forall_forall in F.
      rewrite (IH (S k) (pre ++ [f k]) P E); try assumption.
      * now rewrite <- app_assoc.
      * rewrite app_length. cbn. lia.
      * intro b. split.
        { intros Hb. assert (k <= b < k + S m)%nat by (apply U; destruct Hb; [left; now right|now right]).
          assert (b <> k); [|lia]. intros ->. destruct Hb as [Hb|Hb]; [pose proof (F k Hb); lia|]. apply (D k); [now left|exact Hb]. }
        { intro Hb. destruct (proj2 (U b)) as [[Hx|Hb']|Hb']; [lia|lia|now left|now right]. }
      * intros b Ib. apply D. now right.
    + destruct E as [|x E]; [destruct I|]. pose proof (HdE x E eq_refl I) as Ex. subst x. clear HdP HdE I.
      cbn [fold_left map seq]. replace (insert_at k [] (pre ++ map f P)) with ((pre ++ [f k]) ++ map f P).
      2:{ rewrite (Z k (or_introl eq_refl)). rewrite <- Lp. now rewrite insert_here. }
      apply StronglySorted_inv in SE. destruct SE as [SE' F]. rewrite Forall_forall in F.
      rewrite (IH (S k) (pre ++ [f k]) P E); try assumption.
      * now rewrite <- app_assoc.
      * rewrite app_length. cbn. lia.
      * intro b. split.
        { intros Hb. assert (k <= b < k + S m)%nat by (apply U; destruct Hb; [now left|right; now right]).
          assert (b <> k); [|lia]. intros ->. destruct Hb as [Hb|Hb]; [apply (D k); [exact Hb|now left]|]. pose proof (F k Hb). lia. }
        { intro Hb. destruct (proj2 (U b)) as [Hb'|[Hx|Hb']]; [lia|now left|lia|now right]. }
      * intros b Ib Ie. apply (D b Ib). now right.
      * intros b Ib. apply Z. now right.
Qed.

Lemma bin_lists_ascending n rows sorted empty : bin_sort sorted rows -> (forall b, In b (map fst rows) -> (b < n)%nat) ->
  empty_bins n rows empty -> StronglySorted lt empty ->
  bin_lists sorted empty = map (fun b => rows_of b sorted) (seq 0 n).
Proof.
  intros [P S] Hn [ND EB] SE. destruct (split_sorted sorted S) as (A & B & C). unfold bin_lists. rewrite C.
  assert (M : forall b, In b (map fst sorted) <-> In b (map fst rows)).
  { intro b. split; apply Permutation_in; [|symmetry]; now apply Permutation_map. }
  apply (insert_ascending (fun b => rows_of b sorted) n 0 []); try assumption; try reflexivity.
  - intro b. rewrite (B b), (M b), (EB b). split.
    + intros [H|H]; [pose proof (Hn b H)|]; lia.
    + intro H. destruct (in_dec Nat.eq_dec b (map fst rows)); [now left|right; split; [lia|assumption]].
  - intros b I1 I2. apply B, M in I1. apply EB in I2. tauto.
  - intros b I. apply rows_of_nil. rewrite (M b). now apply EB.
Qed.

Lemma parameters_ascending n rows sorted empty optimise : bin_sort sorted rows -> (forall b, In b (map fst rows) -> (b < n)%nat) ->
  empty_bins n rows empty -> StronglySorted lt empty ->
  length (raw_parameters optimise sorted empty) = n /\
  forall b, (b < n)%nat -> exists l, Permutation l (rows_of b rows) /\ nth_error (raw_parameters optimise sorted empty) b = Some (optimise l).
Proof.
  intros BS Hn EB SE. unfold raw_parameters. rewrite (bin_lists_ascending n rows) by assumption. split; [now rewrite !map_length, seq_length|].
  intros b Hb. exists (rows_of b sorted). split; [apply rows_of_perm; apply BS|].
  rewrite map_map. rewrite (map_nth_error _ b (seq 0 n) (d := b)); [reflexivity|].
  rewrite nth_error_nth' with (d := 0%nat) by (rewrite seq_length; exact Hb). now rewrite seq_nth.
Qed.
End Bins.

(** Another order of the empty bins puts the factors into wrong bins. *)
Lemma wrong_order : exists (n : nat) (rows sorted : list (nat * R)) (empty : list nat) (optimise : list R -> R),
  bin_sort sorted rows /\ (forall b, In b (map fst rows) -> (b < n)%nat) /\ empty_bins n rows empty /\
  exists b, (b < n)%nat /\ rows_of b rows <> [] /\
    nth_error (raw_parameters optimise sorted empty) b = Some (optimise []) /\ optimise [] <> optimise (rows_of b rows).
Proof.
  exists 3%nat, [(2%nat, 5)], [(2%nat, 5)], [1%nat; 0%nat], (fun l => INR (length l)).
  split; [split; [reflexivity|repeat constructor]|]. split; [cbn; intros b [<-|[]]; lia|].
  split. { split; [repeat constructor; cbn; intuition discriminate|]. intro b. cbn. lia. }
  exists 2%nat. split; [lia|]. split; [discriminate|]. split; [reflexivity|]. cbn. lra.
Qed.

(** ** Bins without rows *)
Lemma empty_neutral minimize model neutral : keeps_start minimize -> forall q,
  optimization minimize model (fun p y w => quantile_costs p y w q) neutral [] = neutral.
Proof. intros K q. unfold optimization. apply K. reflexivity. Qed.

Lemma log_neutral : log_parameter (unlink_func Log 0) (unlink_func Log 0) = Some 0 /\
  log_parameter (unlink_func Identity 0) (unlink_func Identity 0) = Some 0.
Proof.
  unfold log_parameter, unlink_func. rewrite exp_0. split.
  - rewrite (proj2 (Reqb_false_iff 1 0)) by lra. cbv zeta. rewrite Rabs_R1. unfold factor_epsilon.
    rewrite (proj2 (Rltb_false 1 (1 / 100000))) by lra. rewrite (proj2 (Rltb_iff 0 1)) by lra. now rewrite ln_1.
  - now rewrite (proj2 (Reqb_iff 0 0)) by reflexivity.
Qed.

(** The neutral start of the classifier becomes a non-neutral factor. *)
Lemma log_classifier : exists p, log_parameter (unlink_func Logit 0) (unlink_func Logit 0) = Some p /\ p <> 0.
Proof.
  exists (ln (1 / 2)). unfold log_parameter, unlink_func.
  replace (1 / (1 + exp (- (0)))) with (1 / 2) by (rewrite Ropp_0, exp_0; field).
  rewrite (proj2 (Reqb_false_iff (1 / 2) 0)) by lra. cbv zeta. rewrite (Rabs_pos_eq (1 / 2)) by lra. unfold factor_epsilon.
  rewrite (proj2 (Rltb_false (1 / 2) (1 / 100000))) by lra. rewrite (proj2 (Rltb_iff 0 (1 / 2))) by lra.
  split; [reflexivity|]. rewrite ln_half. pose proof ln2_pos. lra.
Qed.

(** ** The continuous quantile leaves the range of the targets *)
Lemma Int_part_is x z : IZR z <= x < IZR z + 1 -> Int_part x = z.
Proof. intro H. unfold Int_part. rewrite <- (tech_up x (z + 1)); rewrite ?plus_IZR; try lra. lia. Qed.
Lemma trunc_int z x : (0 <= z)%Z -> x = IZR z -> trunc x = z.
Proof.
  intros H ->. unfold trunc. assert (0 <= IZR z) by (now apply (IZR_le 0)).
  rewrite (proj2 (Rleb_iff 0 (IZR z)) H0). apply Int_part_is. lra.
Qed.
Lemma trunc_small x : 0 <= x < 1 -> trunc x = 0%Z.
Proof. intro H. unfold trunc. rewrite (proj2 (Rleb_iff 0 x)) by lra. apply Int_part_is. lra. Qed.

Definition high_rows : list qrow := [(0, 1); (0, 1); (1, 1)].
Definition low_rows : list qrow := [(0, 1 / 10); (0, 1 / 10); (1, 1 / 10); (1, 1 / 10)].
Ltac weights := unfold high_rows, low_rows, weight_below, weight_upto, total_weight; cbn [map sumR fst snd].
Ltac weights_in H := unfold high_rows, low_rows, weight_below, weight_upto, total_weight in H; cbn [map sumR fst snd] in H.
Ltac decide_all := repeat match goal with
  | H : context [Rle_dec ?a ?b] |- _ => destruct (Rle_dec a b); try lra
  | H : context [Rlt_dec ?a ?b] |- _ => destruct (Rlt_dec a b); try lra
  end.

Lemma continuous_above : forall sort, sorts sort -> weighted_rows high_rows /\ (forall r, In r high_rows -> fst r <= 1) /\
  continuous_quantile sort high_rows (2 / 3) = Some 2.
Proof.
  intros sort HS. assert (W : weighted_rows high_rows).
  { split; [intros r [<-|[<-|[<-|[]]]]; cbn; lra|]. weights. lra. }
  split; [exact W|]. split; [intros r [<-|[<-|[<-|[]]]]; cbn; lra|].
  destruct (continuous_some sort (2 / 3) high_rows HS W ltac:(lra)) as (v & (I & Q1 & Q2) & a & n & b & EB & Hn & A & B & ->).
  assert (V : v = 0).
  { destruct I as [<-|[<-|[<-|[]]]]; try reflexivity. weights_in Q2. decide_all. }
  subst v. destruct (even_below 1 0 a n b high_rows A B) as [E1 E2]; [rewrite <- EB; apply Permutation_map; apply HS|intros r [<-|[<-|[<-|[]]]]; reflexivity|].
  weights_in E1. weights_in E2. cbn [fst snd] in E1, E2.
  assert (L : length a = 0%nat) by (apply INR_eq; cbn [INR]; decide_all).
  assert (N : n = 2%nat) by (apply INR_eq; rewrite L in E2; cbn [INR] in *; decide_all).
  rewrite N, L. cbn [Nat.leb]. f_equal. rewrite (trunc_int 2); [cbn [INR]; field|lia|]. weights. field.
Qed.
Lemma continuous_below : forall sort, sorts sort -> weighted_rows low_rows /\ (forall r, In r low_rows -> 0 <= fst r) /\
  continuous_quantile sort low_rows 1 = Some (-1).
Proof.
  intros sort HS. assert (W : weighted_rows low_rows).
  { split; [intros r [<-|[<-|[<-|[<-|[]]]]]; cbn; lra|]. weights. lra. }
  split; [exact W|]. split; [intros r [<-|[<-|[<-|[<-|[]]]]]; cbn; lra|].
  destruct (continuous_some sort 1 low_rows HS W ltac:(lra)) as (v & (I & Q1 & Q2) & a & n & b & EB & Hn & A & B & ->).
  assert (V : v = 1).
  { destruct I as [<-|[<-|[<-|[<-|[]]]]]; try reflexivity; weights_in Q1; decide_all. }
  subst v. destruct (even_below (1 / 10) 1 a n b low_rows A B) as [E1 E2]; [rewrite <- EB; apply Permutation_map; apply HS|intros r [<-|[<-|[<-|[<-|[]]]]]; reflexivity|].
  weights_in E1. weights_in E2. cbn [fst snd] in E1, E2.
  assert (L : length a = 2%nat) by (apply INR_eq; cbn [INR]; decide_all).
  assert (N : n = 2%nat) by (apply INR_eq; rewrite L in E2; cbn [INR] in *; decide_all).
  rewrite N, L. cbn [Nat.leb]. f_equal. rewrite trunc_small; [cbn [INR]; field|]. weights. lra.
Qed.

(** ** Optimal multiplicative factors are not negative *)
Lemma factor_nonneg q rows p : 0 < q < 1 -> rows <> [] ->
  (forall s, In s rows -> 0 <= s_y s /\ 0 < s_pred s /\ 0 < s_w s) ->
  is_minimum (objective model_multiplicative (fun p y w => quantile_costs p y w q) rows) p -> 0 <= p.
Proof.
  intros Hq NE H (v & Ev & M). destruct (Rle_dec 0 p) as [|N]; [assumption|exfalso]. assert (Np : p < 0) by lra. clear N.
  assert (OB : forall x, objective model_multiplicative (fun p y w => quantile_costs p y w q) rows x =
    Some (sumR (map (fun s => pinball q (x * s_pred s) (s_y s) * s_w s) rows) / sumR (map s_w rows))).
  { intro x. unfold objective. rewrite costs_eq.
    - do 2 f_equal. unfold model_multiplicative. clear. induction rows as [|s rows IH]; cbn [map map2 sumR]; [reflexivity|]. now rewrite IH.
    - destruct rows; [congruence|discriminate].
    - assert (0 < sumR (map s_w rows)); [|lra]. clear - NE H. destruct rows as [|s rows]; [congruence|]. cbn [map sumR].
      destruct (H s (or_introl eq_refl)) as (_ & _ & P). assert (0 <= sumR (map s_w rows)); [|lra].
      apply sumR_nonneg. intros t I. left. apply H. now right. }
  assert (WP : 0 < sumR (map s_w rows)).
  { clear - NE H. destruct rows as [|s rows]; [congruence|]. cbn [map sumR].
    destruct (H s (or_introl eq_refl)) as (_ & _ & P). assert (0 <= sumR (map s_w rows)); [|lra].
    apply sumR_nonneg. intros t I. left. apply H. now right. }
  specialize (M 0 _ (OB 0)). rewrite OB in Ev. injection Ev as <-.
  assert (C : sumR (map (fun s => pinball q (0 * s_pred s) (s_y s) * s_w s) rows) < sumR (map (fun s => pinball q (p * s_pred s) (s_y s) * s_w s) rows)).
  { clear OB M WP. assert (T : forall s, In s rows -> pinball q (0 * s_pred s) (s_y s) * s_w s < pinball q (p * s_pred s) (s_y s) * s_w s).
    { intros s I. destruct (H s I) as (Y & P & W). apply Rmult_lt_compat_r; [exact W|]. rewrite !pinball_cases.
      assert (p * s_pred s < 0) by nra. destruct (Rlt_dec (s_y s) (0 * s_pred s)); [lra|]. destruct (Rlt_dec (s_y s) (p * s_pred s)); [lra|]. nra. }
    clear H. revert T NE. induction rows as [|s rows IH]; intros T NE; [congruence|]. cbn [map sumR].
    pose proof (T s (or_introl eq_refl)). destruct rows as [|t rows]; [cbn; lra|].
    specialize (IH (fun s' I => T s' (or_intror I)) ltac:(discriminate)). lra. }
  apply (Rmult_lt_compat_r (/ sumR (map s_w rows))) in C; [|now apply Rinv_0_lt_compat]. unfold Rdiv in M. lra.
Qed.
Lemma log_defined p : 0 <= p -> log_parameter (unlink_func Log 0) p = Some (ln (Rmax p (1 / 100000))).
Proof.
  intro H. unfold log_parameter, unlink_func. rewrite exp_0, (proj2 (Reqb_false_iff 1 0)) by lra. cbv zeta.
  rewrite (Rabs_pos_eq p H). unfold factor_epsilon. destruct (Rltb p (1 / 100000)) eqn:E.
  - apply Rltb_iff in E. rewrite Rmax_right by lra. rewrite (proj2 (Rltb_iff 0 (1 / 100000))) by lra. reflexivity.
  - apply Rltb_false in E. rewrite Rmax_left by lra. rewrite (proj2 (Rltb_iff 0 p)) by lra. reflexivity.
Qed.
Lemma log_additive p : log_parameter (unlink_func Identity 0) p = Some p.
Proof. unfold log_parameter, unlink_func. now rewrite (proj2 (Reqb_iff 0 0)) by reflexivity. Qed.

(** ** Concrete cases *)
Fixpoint insert_row (r : qrow) (l : list qrow) : list qrow :=
  match l with [] => [r] | a :: rest => if Rle_dec (fst r) (fst a) then r :: l else a :: insert_row r rest end.
Definition insertion_sort (l : list qrow) : list qrow := fold_right insert_row [] l.
Lemma insert_row_perm r l : Permutation (insert_row r l) (r :: l).
Proof.
  induction l as [|a l IH]; cbn; [reflexivity|]. destruct (Rle_dec (fst r) (fst a)); [reflexivity|].
  rewrite IH. apply perm_swap.
Qed.
Lemma insert_row_sorted r l : StronglySorted (fun a b : qrow => fst a <= fst b) l -> StronglySorted (fun a b : qrow => fst a <= fst b) (insert_row r l).
Proof.
  induction l as [|a l IH]; cbn; intro S; [repeat constructor|]. apply StronglySorted_inv in S. destruct S as [S F]. rewrite Forall_forall in F.
  destruct (Rle_dec (fst r) (fst a)) as [L|N].
  - constructor; [constructor; [exact S|now apply Forall_forall]|]. constructor; [exact L|]. apply Forall_forall. intros b I. pose proof (F b I). cbn in *. lra.
  - constructor; [now apply IH|]. apply Forall_forall. intros b I. apply (Permutation_in _ (insert_row_perm r l)) in I.
    destruct I as [<-|I]; [lra|now apply F].
Qed.
Lemma insertion_sorts : sorts insertion_sort.
Proof.
  intro rows. unfold insertion_sort. induction rows as [|r rows [P S]]; cbn [fold_right]; [split; constructor|]. split.
  - rewrite insert_row_perm. now constructor.
  - now apply insert_row_sorted.
Qed.
Lemma high_weighted : weighted_rows high_rows.
Proof. exact (proj1 (continuous_above insertion_sort insertion_sorts)). Qed.
Lemma ex_bins : bin_sort [(0%nat, 1); (2%nat, 5); (2%nat, 4)] [(2%nat, 5); (0%nat, 1); (2%nat, 4)] /\
  empty_bins 4 [(2%nat, 5); (0%nat, 1); (2%nat, 4)] [1%nat; 3%nat] /\ StronglySorted lt [1%nat; 3%nat].
Proof.
  split; [split; [apply perm_swap|repeat constructor]|]. split; [|repeat constructor].
  split; [repeat constructor; cbn; intuition discriminate|]. intro b. cbn. lia.
Qed.
Lemma ex_keeps_start : keeps_start (fun _ x0 => x0).
Proof. intros f x0 _. reflexivity. Qed.
Lemma ex_minimum : is_minimum (objective model_multiplicative (fun p y w => quantile_costs p y w (1 / 2)) [{| s_y := 2; s_pred := 1; s_w := 1 |}]) 2.
Proof.
  unfold objective, model_multiplicative. cbn [map s_y s_pred s_w].
  assert (E : forall x, quantile_costs [x * 1] [2] [1] (1 / 2) = Some (pinball (1 / 2) (x * 1) 2)).
  { intro x. rewrite costs_eq; [|discriminate|cbn; lra]. f_equal. cbn [map2 sumR]. field. }
  exists 0. rewrite E. split; [f_equal; rewrite Rmult_1_r; apply pinball_self|]. intros x w H. rewrite E in H. injection H as <-.
  apply pinball_nonneg. lra.
Qed.

(** ** Optimal constants *)
Lemma gap_above v (rows : list qrow) : exists c, v < c /\ forall r, In r rows -> v < fst r -> c < fst r.
Proof.
  induction rows as [|r rows [c [C1 C2]]]; [exists (v + 1); split; [lra|intros r []]|].
  destruct (Rlt_dec v (fst r)) as [L|L].
  - exists (Rmin c ((v + fst r) / 2)). split; [apply Rmin_glb_lt; lra|]. intros t [<-|I] Ht.
    + eapply Rle_lt_trans; [apply Rmin_r|lra].
    + eapply Rle_lt_trans; [apply Rmin_l|now apply C2].
  - exists c. split; [exact C1|]. intros t [<-|I] Ht; [lra|now apply C2].
Qed.
Lemma gap_below v (rows : list qrow) : exists c, c < v /\ forall r, In r rows -> fst r < v -> fst r < c.
Proof.
  induction rows as [|r rows [c [C1 C2]]]; [exists (v - 1); split; [lra|intros r []]|].
  destruct (Rlt_dec (fst r) v) as [L|L].
  - exists (Rmax c ((v + fst r) / 2)). split; [apply Rmax_lub_lt; lra|]. intros t [<-|I] Ht.
    + eapply Rlt_le_trans; [|apply Rmax_r]. lra.
    + eapply Rlt_le_trans; [|apply Rmax_l]. now apply C2.
  - exists c. split; [exact C1|]. intros t [<-|I] Ht; [lra|now apply C2].
Qed.
Lemma total_gap_up q rows v c : v <= c -> (forall r, In r rows -> v < fst r -> c < fst r) ->
  total_costs q rows c - total_costs q rows v = (c - v) * (weight_upto v rows - q * total_weight rows).
Proof.
  intros Hc. unfold weight_upto, total_weight, total_costs. induction rows as [|[y w] rows IH]; intros H; cbn [map sumR fst snd]; [lra|].
  specialize (IH (fun r I => H r (or_intror I))). pose proof (H (y, w) (or_introl eq_refl)) as G. cbn in G.
  assert (P : pinball q c y * w - pinball q v y * w = (c - v) * ((if Rle_dec y v then w else 0) - q * w)); [|lra].
  rewrite !pinball_cases. destruct (Rle_dec y v), (Rlt_dec y c), (Rlt_dec y v); try lra; try nra.
  - replace y with v by lra. ring.
  - replace y with v by lra. replace c with v by lra. ring.
Qed.
Lemma total_gap_down q rows v c : c <= v -> (forall r, In r rows -> fst r < v -> fst r < c) ->
  total_costs q rows c - total_costs q rows v = (v - c) * (q * total_weight rows - weight_below v rows).
Proof.
  intros Hc. unfold weight_below, total_weight, total_costs. induction rows as [|[y w] rows IH]; intros H; cbn [map sumR fst snd]; [lra|].
  specialize (IH (fun r I => H r (or_intror I))). pose proof (H (y, w) (or_introl eq_refl)) as G. cbn in G.
  assert (P : pinball q c y * w - pinball q v y * w = (v - c) * (q * w - (if Rlt_dec y v then w else 0))); [|lra].
  rewrite !pinball_cases. destruct (Rlt_dec y v), (Rlt_dec y c); try lra; try nra.
Qed.
Lemma total_optimum q rows v : (forall r, In r rows -> 0 <= snd r) ->
  ((forall c, total_costs q rows v <= total_costs q rows c) <-> splits q rows v).
Proof.
  intro H. split.
  - intro M. split.
    + destruct (gap_below v rows) as [c [C1 C2]]. pose proof (total_gap_down q rows v c ltac:(lra) C2) as E. specialize (M c). nra.
    + destruct (gap_above v rows) as [c [C1 C2]]. pose proof (total_gap_up q rows v c ltac:(lra) C2) as E. specialize (M c). nra.
  - intros [B U] c. destruct (Rle_dec v c) as [L|L].
    + pose proof (total_diff_up q rows v c H L). nra.
    + pose proof (total_diff_down q rows v c H ltac:(lra)). nra.
Qed.
Lemma scaled_minimum (f : R -> option R) (g : R -> R) k p : 0 < k -> (forall x, f x = Some (k * g x)) ->
  (is_minimum f p <-> forall x, g p <= g x).
Proof.
  intros K E. split.
  - intros [v [E1 M]] x. rewrite E in E1. injection E1 as <-. specialize (M x _ (E x)). nra.
  - intro M. exists (k * g p). split; [apply E|]. intros x w Hw. rewrite E in Hw. injection Hw as <-. specialize (M x). nra.
Qed.
Lemma constant_optimum q rows v : weighted_rows rows -> (is_minimum (constant_costs q rows) v <-> splits q rows v).
Proof.
  intros [H W]. assert (NE : rows <> []) by (intros ->; unfold total_weight in W; cbn in W; lra).
  rewrite (scaled_minimum _ (total_costs q rows) (/ total_weight rows)); [now apply total_optimum|now apply Rinv_0_lt_compat|].
  intro x. rewrite constant_total by (auto; lra). f_equal. unfold Rdiv. ring.
Qed.
Lemma additive_optimum q rows p : (forall s, In s rows -> 0 <= s_w s) -> 0 < sumR (map s_w rows) ->
  (is_minimum (objective model_additive (fun p y w => quantile_costs p y w q) rows) p <-> splits q (residuals rows) p).
Proof.
  intros H W. assert (NE : rows <> []) by (intros ->; cbn in W; lra).
  rewrite (scaled_minimum _ (total_costs q (residuals rows)) (/ sumR (map s_w rows))).
  - apply total_optimum. intros r I. apply in_map_iff in I as [s [<- I]]. now apply H.
  - now apply Rinv_0_lt_compat.
  - intro x. unfold objective. rewrite costs_eq; [|destruct rows; [congruence|discriminate]|lra]. f_equal. unfold Rdiv. rewrite Rmult_comm. f_equal.
    unfold total_costs, residuals, model_additive. rewrite map_map. clear. induction rows as [|s rows IH]; cbn [map map2 sumR fst snd]; [reflexivity|]. rewrite IH.
    f_equal. f_equal. rewrite !pinball_cases. destruct (Rlt_dec (s_y s) (x + s_pred s)), (Rlt_dec (s_y s - s_pred s) x); lra.
Qed.
Lemma multiplicative_optimum q rows p : (forall s, In s rows -> 0 <= s_w s /\ 0 < s_pred s) -> 0 < sumR (map s_w rows) ->
  (is_minimum (objective model_multiplicative (fun p y w => quantile_costs p y w q) rows) p <-> splits q (ratios rows) p).
Proof.
  intros H W. assert (NE : rows <> []) by (intros ->; cbn in W; lra).
  rewrite (scaled_minimum _ (total_costs q (ratios rows)) (/ sumR (map s_w rows))).
  - apply total_optimum. intros r I. apply in_map_iff in I as [s [<- I]]. cbn. destruct (H s I). nra.
  - now apply Rinv_0_lt_compat.
  - intro x. unfold objective. rewrite costs_eq; [|destruct rows; [congruence|discriminate]|lra]. f_equal. unfold Rdiv. rewrite Rmult_comm. f_equal.
    unfold total_costs, ratios, model_multiplicative. rewrite map_map. clear NE W. induction rows as [|s rows IH]; cbn [map map2 sumR fst snd]; [reflexivity|].
    rewrite IH by (intros t I; apply H; now right). destruct (H s (or_introl eq_refl)) as [_ P].
    f_equal. rewrite !pinball_cases. assert (E : s_y s = s_y s / s_pred s * s_pred s) by (field; lra). set (z := s_y s / s_pred s) in *.
    destruct (Rlt_dec (s_y s) (x * s_pred s)) as [A|A], (Rlt_dec z x) as [B|B]; rewrite E in *; try lra; try nra.
Qed.
Lemma quantile_splits q rows v : is_quantile q rows v -> splits q rows v.
Proof. intros [_ [U B]]. split; lra. Qed.
