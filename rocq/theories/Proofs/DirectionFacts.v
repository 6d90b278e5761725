(** The direction found for monotonic columns without a given one. *)
From Coq Require Import ZArith QArith Qreals List Bool Reals Lia Lra.
From Verif.Model Require Import Num LexBins Train MetaSmoothers SmootherChoice Isotonic.
From Verif.Spec Require Import MetaSpec IsotonicSpec.
From Verif.Proofs Require Import TrainFacts LinkFacts TrainExamples IsotonicFacts.
Import ListNotations.
Local Open Scope R_scope.

Lemma count_all (p : R -> bool) l : (forall v, In v l -> p v = true) -> count p l = INR (length l).
Proof.
  intro H. unfold count. f_equal. induction l as [|a l IH]; [reflexivity|]. cbn. rewrite (H a (or_introl eq_refl)). cbn. f_equal. apply IH. intros; apply H; now right.
Qed.
Lemma count_none (p : R -> bool) l : (forall v, In v l -> p v = false) -> count p l = 0.
Proof.
  intro H. unfold count. induction l as [|a l IH]; [reflexivity|]. cbn. rewrite (H a (or_introl eq_refl)). apply IH. intros; apply H; now right.
Qed.
Lemma count_split (p : R -> bool) a v b : count p (a ++ v :: b) = count p a + (if p v then 1 else 0) + count p b.
Proof.
  unfold count. rewrite filter_app, app_length, plus_INR. cbn [filter]. destruct (p v); cbn [length]; rewrite ?S_INR; lra.
Qed.
Lemma rank_between (up : bool) a v b : (forall x, In x a -> if up then x < v else v < x) -> (forall x, In x b -> if up then v < x else x < v) ->
  rank (a ++ v :: b) v = INR (length (if up then a else b)).
Proof.
  intros A B. unfold rank. rewrite !count_split.
  assert (N : forall l c, (forall x, In x l -> if c : bool then x < v else v < x) -> count (Reqb v) l = 0).
  { intros l c H. apply count_none. intros x I. specialize (H x I). apply Reqb_false_iff. destruct c; lra. }
  assert (L : forall l c, (forall x, In x l -> if c : bool then x < v else v < x) -> count (fun u => Rltb u v) l = if c then INR (length l) else 0).
  { intros l c H. destruct c; [apply count_all|apply count_none]; intros x I; specialize (H x I); [apply Rltb_iff|apply Rltb_false]; lra. }
  rewrite (N a up A), (L a up A). rewrite (proj2 (Rltb_false v v)) by lra. rewrite (proj2 (Reqb_iff v v)) by reflexivity.
  assert (B' : forall x, In x b -> if negb up then x < v else v < x) by (intros x I; specialize (B x I); destruct up; exact B).
  rewrite (N b _ B'), (L b _ B'). destruct up; cbn; lra.
Qed.
Lemma strictly_rank up l i : strictly up l -> (i < length l)%nat ->
  rank l (nth i l 0) = if up then INR i else INR (length l) - 1 - INR i.
Proof.
  intros H Hi. destruct (nth_split l 0 Hi) as (a & b & E & La).
  assert (IA : forall x, In x a -> if up then x < nth i l 0 else nth i l 0 < x).
  { intros x I. destruct (In_nth _ _ 0 I) as (j & Lj & <-). replace (nth j a 0) with (nth j l 0) by (rewrite E; apply app_nth1; auto).
    apply (H j i). lia. }
  assert (IB : forall x, In x b -> if up then nth i l 0 < x else x < nth i l 0).
  { intros x I. destruct (In_nth _ _ 0 I) as (j & Lj & <-).
    assert (LL : length l = (i + S (length b))%nat) by (rewrite E, app_length; cbn; lia).
    replace (nth j b 0) with (nth (i + S j) l 0). { apply (H i (i + S j)%nat). lia. }
    rewrite E. rewrite app_nth2 by lia. replace (i + S j - length a)%nat with (S j) by lia. reflexivity. }
  assert (LL : length l = (i + S (length b))%nat) by (rewrite E, app_length; cbn; lia).
  transitivity (rank (a ++ nth i l 0 :: b) (nth i l 0)); [now rewrite <- E|].
  rewrite (rank_between up); auto. destruct up; [now rewrite La|]. rewrite LL, plus_INR, S_INR. lra.
Qed.
Lemma map2_seq (f : R -> R -> R) a : forall b, length a = length b ->
  map2 f a b = map (fun i => f (nth i a 0) (nth i b 0)) (seq 0 (length a)).
Proof.
  induction a as [|x a IH]; intros [|y b] L; cbn in L; try lia; [reflexivity|]. cbn [map2 length seq map nth]. f_equal.
  rewrite IH by lia. rewrite <- seq_shift, map_map. reflexivity.
Qed.
Lemma sum_sign (f : nat -> R) l : (forall i, In i l -> 0 <= f i) -> 0 <= sumR (map f l).
Proof.
  induction l as [|i l IH]; intro H; cbn; [lra|]. pose proof (H i (or_introl eq_refl)). pose proof (IH (fun j I => H j (or_intror I))). lra.
Qed.
Lemma sum_neg (f : nat -> R) l : sumR (map (fun i => - f i) l) = - sumR (map f l).
Proof. induction l; cbn; lra. Qed.

Lemma correlation_sum up x y : strictly true x -> strictly up y -> length x = length y ->
  sumR (map2 (fun a b => (rank x a - (INR (length y) - 1) / 2) * (rank y b - (INR (length y) - 1) / 2)) x y) =
  (if up then 1 else -1) * sumR (map (fun i => (INR i - (INR (length y) - 1) / 2) ^ 2) (seq 0 (length y))).
Proof.
  intros X Y L. rewrite map2_seq by exact L. rewrite L.
  assert (G : forall l, (forall i, In i l -> (i < length y)%nat) ->
    sumR (map (fun i => (rank x (nth i x 0) - (INR (length y) - 1) / 2) * (rank y (nth i y 0) - (INR (length y) - 1) / 2)) l) =
    (if up then 1 else -1) * sumR (map (fun i => (INR i - (INR (length y) - 1) / 2) ^ 2) l)).
  { induction l as [|i l IH]; intro H; [cbn; destruct up; ring|]. cbn [map sumR]. rewrite IH by (intros; apply H; now right).
    pose proof (H i (or_introl eq_refl)) as Hi. rewrite (strictly_rank true x i X) by lia. rewrite (strictly_rank up y i Y) by lia.
    destruct up; field. }
  apply G. intros i I. apply in_seq in I. lia.
Qed.
Lemma direction_found up x y : strictly true x -> strictly up y -> length x = length y -> (2 <= length y)%nat ->
  check_increasing x y = up.
Proof.
  intros X Y L H2. unfold check_increasing. rewrite (correlation_sum up) by auto.
  assert (D : existsb (fun v => negb (Reqb v (hd 0 y))) y = true).
  { apply existsb_exists. exists (nth 1 y 0). split; [apply nth_In; lia|]. apply negb_true_iff, Reqb_false_iff.
    pose proof (Y 0%nat 1%nat ltac:(lia)) as S. destruct y as [|a y]; [cbn in H2; lia|]. cbn [hd nth] in *. destruct up; lra. }
  rewrite D. cbn [andb]. set (n := length y) in *. set (m := (INR n - 1) / 2).
  assert (P : 0 < sumR (map (fun i => (INR i - m) ^ 2) (seq 0 n))).
  { destruct n as [|n]; [lia|]. cbn [seq map sumR].
    assert (0 <= sumR (map (fun i => (INR i - m) ^ 2) (seq 1 n))) by (apply sum_sign; intros; apply pow2_ge_0).
    assert (Hm : m <> 0). { unfold m. rewrite S_INR. assert (1 <= INR n) by (change 1 with (INR 1); apply le_INR; lia). lra. }
    assert (0 < (INR 0 - m) ^ 2); [|lra]. change (INR 0) with 0. replace ((0 - m) ^ 2) with (m ^ 2) by ring. cbn [pow]. rewrite Rmult_1_r. apply Rsqr_pos_lt in Hm. exact Hm. }
  destruct up; [apply Rleb_iff; lra|apply Rleb_false; lra].
Qed.
Lemma error_self w : forall y, squared_error w y y = 0.
Proof. induction w as [|a w IH]; intros [|b y]; cbn; try reflexivity. rewrite IH. ring. Qed.
Lemma error_nonneg w : forall y z, (forall x, In x w -> 0 < x) -> 0 <= squared_error w y z.
Proof.
  induction w as [|a w IH]; intros [|b y] [|c z] H; cbn [squared_error]; try lra.
  pose proof (H a (or_introl eq_refl)). pose proof (IH y z (fun x I => H x (or_intror I))). pose proof (pow2_ge_0 (b - c)). nra.
Qed.
Lemma strictly_follows b l : strictly b l -> follows b l.
Proof.
  intro H. destruct b; intros i j L; destruct (Nat.eq_dec i j) as [->|N]; try lra; pose proof (H i j ltac:(lia)); cbn in *; lra.
Qed.
Lemma sorted_abscissas X : sorted_rows X -> strictly true (map Q2R (map abscissa X)).
Proof.
  intros [F S] i j H. rewrite map_map, map_length in H.
  destruct (nth_error X i) as [a|] eqn:A; [|apply nth_error_None in A; lia].
  destruct (nth_error X j) as [b|] eqn:B; [|apply nth_error_None in B; lia].
  pose proof (S i j a b ltac:(lia) A B) as L. rewrite map_map.
  rewrite !(nth_error_nth (map (fun r => Q2R (abscissa r)) X) _ _ (map_nth_error _ _ _ A)).
  rewrite !(nth_error_nth (map (fun r => Q2R (abscissa r)) X) _ _ (map_nth_error _ _ _ B)).
  apply Qlt_Rlt. exact L.
Qed.

(** Strictly monotone estimates are kept as they are. *)
Lemma auto_keeps up X y : sorted_rows X -> length X = length y -> strictly up y ->
  predict (isotonic AutoDirection) (fit (isotonic AutoDirection) X y) (map (fun r => [hd NaN (r_x r)]) X) = map Some y.
Proof.
  intros S L Y. set (b := direction_bool AutoDirection X y).
  assert (BF : follows b y).
  { destruct (le_lt_dec 2 (length y)) as [G|G].
    - unfold b, direction_bool. cbn [direction_of]. rewrite (direction_found up); auto.
      + apply strictly_follows. exact Y.
      + apply sorted_abscissas. exact S.
      + rewrite !map_length. exact L.
    - destruct b; intros i j H; replace j with i by lia; lra. }
  pose proof (isotonic_fit_best AutoDirection X y L) as B. fold b in B.
  assert (LI : length (inverse_variances X) = length y) by (unfold inverse_variances; rewrite map_length; exact L).
  assert (BY : best_monotone b (inverse_variances X) y y).
  { split; [reflexivity|]. split; [exact BF|]. intros z _ _. rewrite error_self. apply error_nonneg. apply inverse_variances_pos. }
  pose proof (best_unique b (inverse_variances X) y _ y LI (inverse_variances_pos X) B BY) as E.
  cbn [predict fit isotonic]. fold (direction_bool AutoDirection X y). fold b. fold (inverse_variances X). rewrite E.
  apply isotonic_at_rows; [exact S|auto|]. apply rows_of_self. apply S.
Qed.
