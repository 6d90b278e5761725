(** Pool adjacent violators gives the best monotone sequence. *)
From Coq Require Import ZArith QArith Qreals List Bool Reals Lia Lra.
From Verif.Model Require Import Num Train SmootherChoice MetaSmoothers Isotonic.
From Verif.Spec Require Import IsotonicSpec.
From Verif.Proofs Require Import TrainFacts TrainExamples.
Import ListNotations.
Local Open Scope R_scope.

(** ** Monotone sequences *)
Lemma nondecreasing_nil : nondecreasing [].
Proof. intros i j [_ H]. cbn in H. lia. Qed.
Lemma nondecreasing_tail a l : nondecreasing (a :: l) -> nondecreasing l.
Proof. intros H i j L. apply (H (S i) (S j)). cbn. lia. Qed.
Lemma nondecreasing_head a b l : nondecreasing (a :: b :: l) -> a <= b.
Proof. intro H. apply (H 0%nat 1%nat). cbn. lia. Qed.
Lemma nondecreasing_cons a l : (forall x, In x l -> a <= x) -> nondecreasing l -> nondecreasing (a :: l).
Proof.
  intros A H [|i] [|j] L; cbn in *; try lia; [lra| |apply H; lia].
  apply A, nth_In. lia.
Qed.
Lemma nondecreasing_ge a l x : nondecreasing (a :: l) -> In x l -> a <= x.
Proof.
  intros H I. destruct (In_nth _ _ 0 I) as (j & L & <-). apply (H 0%nat (S j)). cbn. lia.
Qed.
Lemma nondecreasing_app a b : nondecreasing a -> nondecreasing b ->
  (forall x y, In x a -> In y b -> x <= y) -> nondecreasing (a ++ b).
Proof.
  induction a as [|x a IH]; intros Ha Hb C; [exact Hb|]. cbn. apply nondecreasing_cons.
  - intros y I. apply in_app_or in I. destruct I as [I|I].
    + exact (nondecreasing_ge _ _ _ Ha I).
    + apply C; [now left|exact I].
  - apply IH; [eapply nondecreasing_tail; eassumption|exact Hb|]. intros u v U V. apply C; [now right|exact V].
Qed.
Lemma nondecreasing_app_l a b : nondecreasing (a ++ b) -> nondecreasing a.
Proof.
  intros H i j L. specialize (H i j). rewrite app_length in H. rewrite !app_nth1 in H by lia. apply H. lia.
Qed.
Lemma nondecreasing_app_r a b : nondecreasing (a ++ b) -> nondecreasing b.
Proof.
  intros H i j L. specialize (H (length a + i)%nat (length a + j)%nat). rewrite app_length in H.
  rewrite !app_nth2 in H by lia. replace (length a + i - length a)%nat with i in H by lia.
  replace (length a + j - length a)%nat with j in H by lia. apply H. lia.
Qed.
Lemma nondecreasing_repeat m c : nondecreasing (repeat m c).
Proof. intros i j L. rewrite repeat_length in L. rewrite !(nth_indep (repeat m c) 0 m) by (rewrite repeat_length; lia). rewrite !nth_repeat. lra. Qed.
Lemma nondecreasing_shift c l : nondecreasing l -> nondecreasing (map (fun x => x + c) l).
Proof.
  intros H i j L. rewrite map_length in L.
  rewrite !(nth_indep (map _ l) 0 (0 + c)) by (rewrite map_length; lia).
  rewrite !(map_nth (fun x => x + c)). specialize (H i j L). lra.
Qed.

(** ** Data: pairs of weight and value *)
Fixpoint weight (d : list (R * R)) : R := match d with [] => 0 | p :: r => fst p + weight r end.
Fixpoint moment (d : list (R * R)) : R := match d with [] => 0 | p :: r => fst p * snd p + moment r end.
Lemma weight_app a b : weight (a ++ b) = weight a + weight b.
Proof. induction a as [|p a IH]; cbn; [lra|]. rewrite IH. lra. Qed.
Lemma moment_app a b : moment (a ++ b) = moment a + moment b.
Proof. induction a as [|p a IH]; cbn; [lra|]. rewrite IH. lra. Qed.
Definition positive (d : list (R * R)) : Prop := forall p, In p d -> 0 < fst p.
Lemma weight_nonneg d : positive d -> 0 <= weight d.
Proof.
  induction d as [|p d IH]; intro H; cbn; [lra|]. pose proof (H p (or_introl eq_refl)).
  assert (0 <= weight d) by (apply IH; intros q I; apply H; now right). lra.
Qed.

(** A block and its data: mean, and every initial part of the data has a mean not
    below it. *)
Record block_of (b : R * R * nat) (d : list (R * R)) : Prop := {
  bo_pos : positive d;
  bo_ne : d <> [];
  bo_count : snd b = length d;
  bo_weight : fst (fst b) = weight d;
  bo_moment : snd (fst b) * weight d = moment d;
  bo_prefix : forall p q, d = p ++ q -> snd (fst b) * weight p <= moment p
}.
Lemma positive_weight d : positive d -> d <> [] -> 0 < weight d.
Proof.
  destruct d as [|p d]; intros H N; [congruence|]. cbn. pose proof (H p (or_introl eq_refl)).
  assert (0 <= weight d) by (apply weight_nonneg; intros q I; apply H; now right). lra.
Qed.

Lemma app_cases {A} (a b p q : list A) : a ++ b = p ++ q ->
  (exists r, a = p ++ r) \/ (exists r, p = a ++ r /\ b = r ++ q).
Proof.
  revert p. induction a as [|x a IH]; intros p E.
  - right. exists p. auto.
  - destruct p as [|y p].
    + left. exists (x :: a). reflexivity.
    + cbn in E. injection E as <- E. destruct (IH p E) as [(r & ->)|(r & -> & ->)].
      * left. now exists r.
      * right. now exists r.
Qed.

Lemma merge_block w m c w' m' c' d d' : block_of (w, m, c) d -> block_of (w', m', c') d' -> m <= m' ->
  block_of (w' + w, (w' * m' + w * m) / (w' + w), (c' + c)%nat) (d' ++ d).
Proof.
  intros [P N Cn W M Pr] [P' N' Cn' W' M' Pr'] Le. cbn [fst snd] in *.
  pose proof (positive_weight _ P N) as Wp. pose proof (positive_weight _ P' N') as Wp'.
  set (a := (w' * m' + w * m) / (w' + w)).
  assert (Ea : a * (weight d' + weight d) = moment d' + moment d).
  { unfold a. rewrite W, W'. rewrite <- M, <- M'. field. lra. }
  assert (A1 : m <= a) by nra. assert (A2 : a <= m') by nra.
  split; cbn [fst snd].
  - intros p I. apply in_app_or in I. destruct I; auto.
  - intro E. apply app_eq_nil in E. tauto.
  - rewrite app_length. congruence.
  - rewrite weight_app. congruence.
  - rewrite weight_app, moment_app. exact Ea.
  - intros p q E. apply app_cases in E. destruct E as [(r & E)|(r & -> & E)].
    + specialize (Pr' p r E). assert (0 <= weight p).
      { apply weight_nonneg. intros z I. apply P'. rewrite E. apply in_or_app. now left. }
      nra.
    + rewrite weight_app, moment_app. specialize (Pr r q E).
      assert (R0 : 0 <= weight r). { apply weight_nonneg. intros z I. apply P. rewrite E. apply in_or_app. now left. }
      assert (Q0 : 0 <= weight q). { apply weight_nonneg. intros z I. apply P. rewrite E. apply in_or_app. now right. }
      assert (We : weight d = weight r + weight q) by (rewrite E; apply weight_app).
      (* a (W' + Wr) <= M' + m Wr *)
      assert (K : a * weight d' - moment d' = moment d - a * weight d) by lra.
      assert (a * weight d' + a * weight r <= moment d' + m * weight r).
      { replace (moment d) with (m * weight d) in K by exact M. nra. }
      nra.
Qed.

(** Blocks with their data, the last block first, means strictly decreasing. *)
Inductive blocks_of : list (R * R * nat) -> list (R * R) -> Prop :=
| blocks_nil : blocks_of [] []
| blocks_cons b bs d ds : block_of b d -> blocks_of bs ds ->
    (forall b', In b' bs -> snd (fst b') < snd (fst b)) -> blocks_of (b :: bs) (ds ++ d).

Lemma push_blocks bs : forall w m c d ds, block_of (w, m, c) d -> blocks_of bs ds ->
  blocks_of (push w m c bs) (ds ++ d).
Proof.
  induction bs as [|b bs IH]; intros w m c d ds B H.
  - inversion H; subst. cbn. apply (blocks_cons _ _ d []); [exact B|constructor|]. intros b' [].
  - inversion H as [|? ? d0 ds0 B0 H0 L0]; subst. destruct b as [[w' m'] c']. cbn [push].
    destruct (Rleb m m') eqn:E.
    + rewrite <- app_assoc. apply IH; [|exact H0]. apply merge_block; [exact B|exact B0|now apply Rleb_iff].
    + apply Rleb_false in E. apply blocks_cons; [exact B|exact H|].
      intros b' [<-|I]; cbn; [exact E|]. specialize (L0 b' I). cbn in L0. lra.
Qed.

Lemma single_block w y : 0 < w -> block_of (w, y, 1%nat) [(w, y)].
Proof.
  intro P. split; cbn; try lra; try reflexivity; try discriminate.
  - intros p [<-|[]]. exact P.
  - intros p q E. destruct p as [|x [|? p]]; cbn; [lra| |].
    + injection E as <- E. cbn. lra.
    + injection E as _ E. discriminate.
Qed.

Lemma pool_blocks l : forall bs ds, positive l -> blocks_of bs ds ->
  blocks_of (fold_left (fun blocks d => push (fst d) (snd d) 1 blocks) l bs) (ds ++ l).
Proof.
  induction l as [|[w y] l IH]; intros bs ds P H; cbn; [now rewrite app_nil_r|].
  replace (ds ++ (w, y) :: l) with ((ds ++ [(w, y)]) ++ l) by (rewrite <- app_assoc; reflexivity).
  apply IH; [intros p I; apply P; now right|]. apply push_blocks; [|exact H].
  apply single_block. exact (P (w, y) (or_introl eq_refl)).
Qed.

(** ** The expanded blocks *)
Lemma expand_cons b bs : expand (b :: bs) = expand bs ++ repeat (snd (fst b)) (snd b).
Proof. unfold expand. cbn. rewrite flat_map_app. cbn. now rewrite app_nil_r. Qed.

Lemma expand_in bs x : In x (expand bs) -> exists b, In b bs /\ x = snd (fst b).
Proof.
  induction bs as [|b bs IH]; [intros []|]. rewrite expand_cons. intro I. apply in_app_or in I.
  destruct I as [I|I].
  - destruct (IH I) as (b' & I' & E). exists b'. split; [now right|exact E].
  - apply repeat_spec in I. exists b. split; [now left|exact I].
Qed.

Lemma expand_length bs ds : blocks_of bs ds -> length (expand bs) = length ds.
Proof.
  induction 1 as [|b bs d ds B H IH L]; [reflexivity|].
  rewrite expand_cons, !app_length, repeat_length, IH. destruct B. congruence.
Qed.

Lemma expand_monotone bs ds : blocks_of bs ds -> nondecreasing (expand bs).
Proof.
  induction 1 as [|b bs d ds B H IH L]; [apply nondecreasing_nil|].
  rewrite expand_cons. apply nondecreasing_app; [exact IH|apply nondecreasing_repeat|].
  intros x y I J. destruct (expand_in _ _ I) as (b' & I' & ->). apply repeat_spec in J. subst y.
  specialize (L b' I'). lra.
Qed.

(** Abel summation. *)
Lemma abel d : forall z s z0, length z = length d -> nondecreasing (z0 :: z) ->
  0 <= s -> (forall p q, d = p ++ q -> 0 <= s + sumR p) ->
  exists zl, s * z0 + sumR (map2 Rmult d z) <= (s + sumR d) * zl.
Proof.
  induction d as [|x d IH]; intros z s z0 L N Ps H.
  - exists z0. destruct z; [|discriminate]. cbn. lra.
  - destruct z as [|z1 z]; [discriminate|]. cbn in L. injection L as L.
    pose proof (nondecreasing_head _ _ _ N) as L1.
    assert (S1 : 0 <= s + x). { specialize (H [x] d eq_refl). cbn in H. lra. }
    destruct (IH z (s + x) z1 L (nondecreasing_tail _ _ N) S1) as (zl & E).
    { intros p q ->. specialize (H (x :: p) q eq_refl). cbn in H. lra. }
    exists zl. cbn. unfold sumR in E |- *. cbn in E |- *. nra.
Qed.

(** Weighted products of the deviations. *)
Fixpoint cross (d : list (R * R)) (v z : list R) : R :=
  match d, v, z with
  | p :: d', a :: v', b :: z' => fst p * (snd p - a) * (b - a) + cross d' v' z'
  | _, _, _ => 0
  end.
Fixpoint spread (d : list (R * R)) (v z : list R) : R :=
  match d, v, z with
  | p :: d', a :: v', b :: z' => fst p * (b - a) ^ 2 + spread d' v' z'
  | _, _, _ => 0
  end.

Lemma cross_app d1 d2 v1 v2 z1 z2 : length v1 = length d1 -> length z1 = length d1 ->
  cross (d1 ++ d2) (v1 ++ v2) (z1 ++ z2) = cross d1 v1 z1 + cross d2 v2 z2.
Proof.
  revert v1 z1. induction d1 as [|p d1 IH]; intros [|a v1] [|b z1] L1 L2; try discriminate; cbn; [lra|].
  rewrite IH by (cbn in L1, L2; lia). lra.
Qed.

Lemma cross_block b d z : block_of b d -> length z = length d -> nondecreasing z ->
  cross d (repeat (snd (fst b)) (snd b)) z <= 0.
Proof.
  intros [P N C W M Pr] L Z. rewrite C. set (m := snd (fst b)) in *. clearbody m.
  assert (E : forall d' z', length z' = length d' -> cross d' (repeat m (length d')) z' =
     sumR (map2 Rmult (map (fun p => fst p * (snd p - m)) d') (map (fun x => x - m) z'))).
  { induction d' as [|p d' IH]; intros [|x z'] L'; try discriminate; cbn; [reflexivity|]. rewrite IH by (cbn in L'; lia). reflexivity. }
  assert (Sm : forall d', sumR (map (fun p => fst p * (snd p - m)) d') = moment d' - m * weight d').
  { induction d' as [|p d' IH]; cbn; [lra|]. rewrite IH. lra. }
  rewrite E by exact L. destruct z as [|x z]; [destruct d; [|discriminate]; cbn; lra|].
  destruct (abel (map (fun p => fst p * (snd p - m)) d) (map (fun x => x - m) (x :: z)) 0 (x - m)) as (zl & Q).
  - now rewrite !map_length.
  - change (nondecreasing (map (fun x => x + - m) (x :: x :: z))). apply nondecreasing_shift.
    apply nondecreasing_cons; [|exact Z]. intros y [<-|I]; [lra|]. exact (nondecreasing_ge _ _ _ Z I).
  - lra.
  - intros p q Ep. 
    assert (Ed : exists p' q', d = p' ++ q' /\ p = map (fun p => fst p * (snd p - m)) p').
    { exists (firstn (length p) d), (skipn (length p) d). split; [now rewrite firstn_skipn|].
      rewrite <- firstn_map, Ep. rewrite firstn_app, firstn_all, Nat.sub_diag. cbn. now rewrite app_nil_r. }
    destruct Ed as (p' & q' & Ed & ->). rewrite Sm. specialize (Pr p' q' Ed). lra.
  - rewrite Sm in Q. replace (moment d - m * weight d) with 0 in Q by lra. lra.
Qed.

Lemma app_split {A} (z : list A) n m : length z = (n + m)%nat ->
  exists a b, z = a ++ b /\ length a = n /\ length b = m.
Proof.
  intro L. exists (firstn n z), (skipn n z). rewrite firstn_skipn, firstn_length, skipn_length. repeat split; lia.
Qed.

Lemma cross_blocks bs ds : blocks_of bs ds -> forall z, length z = length ds -> nondecreasing z ->
  cross ds (expand bs) z <= 0.
Proof.
  induction 1 as [|b bs d ds B H IH L]; intros z Lz Z; [cbn; lra|].
  rewrite app_length in Lz. destruct (app_split _ _ _ Lz) as (z1 & z2 & -> & L1 & L2).
  rewrite expand_cons, cross_app; [|now apply expand_length|exact L1].
  pose proof (IH z1 L1 (nondecreasing_app_l _ _ Z)). pose proof (cross_block b d z2 B L2 (nondecreasing_app_r _ _ Z)). lra.
Qed.

Lemma error_split d : forall v z, length v = length d -> length z = length d ->
  squared_error (map fst d) (map snd d) z =
  squared_error (map fst d) (map snd d) v - 2 * cross d v z + spread d v z.
Proof.
  induction d as [|p d IH]; intros [|a v] [|b z] L1 L2; try discriminate; cbn; [lra|].
  cbn in IH. rewrite (IH v z) by (cbn in L1, L2; lia). ring.
Qed.
Lemma spread_nonneg d : positive d -> forall v z, 0 <= spread d v z.
Proof.
  induction d as [|p d IH]; intros P [|a v] [|b z]; cbn; try lra.
  assert (0 <= spread d v z) by (apply IH; intros q I; apply P; now right).
  pose proof (P p (or_introl eq_refl)). pose proof (pow2_ge_0 (b - a)). cbn in H1. nra.
Qed.
Lemma spread_zero d : positive d -> forall v z, length v = length d -> length z = length d -> spread d v z <= 0 -> v = z.
Proof.
  induction d as [|p d IH]; intros P [|a v] [|b z] L1 L2 E; try discriminate; [reflexivity|]. cbn in E.
  assert (P' : positive d) by (intros q I; apply P; now right).
  pose proof (spread_nonneg d P' v z). pose proof (P p (or_introl eq_refl)). pose proof (pow2_ge_0 (b - a)).
  assert (0 <= fst p * (b - a) ^ 2) by nra. cbn in H2.
  assert (Z : (b - a) ^ 2 = 0). { cbn. cbn in H1. nra. }
  assert (b - a = 0). { apply Rsqr_0_uniq. unfold Rsqr. cbn in Z. lra. }
  f_equal; [lra|]. cbn in L1, L2. apply IH; [exact P'|lia|lia|]. cbn in Z. nra.
Qed.

Lemma combine_positive w y : (forall x, In x w -> 0 < x) -> positive (combine w y).
Proof. intros P [a b] I. cbn. apply P. eapply in_combine_l. eassumption. Qed.
Lemma combine_fst' {A B} (a : list A) : forall b : list B, length a = length b -> map fst (combine a b) = a.
Proof. induction a; intros [|y b] L; try discriminate; cbn; [reflexivity|]. f_equal. auto. Qed.
Lemma combine_snd' {A B} (a : list A) : forall b : list B, length a = length b -> map snd (combine a b) = b.
Proof. induction a; intros [|y b] L; try discriminate; cbn; [reflexivity|]. f_equal. auto. Qed.

Section Pool.
Variables w y : list R.
Hypothesis L : length w = length y.
Hypothesis P : forall x, In x w -> 0 < x.

Lemma pool_is_blocks : exists bs, blocks_of bs (combine w y) /\ pool w y = expand bs.
Proof.
  exists (fold_left (fun blocks d => push (fst d) (snd d) 1 blocks) (combine w y) []). split; [|reflexivity].
  apply (pool_blocks (combine w y) [] []); [now apply combine_positive|constructor].
Qed.

Lemma pool_length : length (pool w y) = length y.
Proof.
  destruct pool_is_blocks as (bs & B & ->). rewrite (expand_length _ _ B), combine_length. lia.
Qed.

(** Least squares, and the excess of any other monotone sequence. *)
Lemma pool_gap z : length z = length y -> nondecreasing z ->
  squared_error w y (pool w y) + spread (combine w y) (pool w y) z <= squared_error w y z.
Proof.
  intros Lz Z. destruct pool_is_blocks as (bs & B & E). rewrite E.
  assert (Lc : length (combine w y) = length y) by (rewrite combine_length; lia).
  pose proof (error_split (combine w y) (expand bs) z) as Sp. rewrite combine_fst', combine_snd' in Sp by exact L.
  rewrite Sp; [|now apply expand_length|congruence].
  assert (cross (combine w y) (expand bs) z <= 0) by (apply (cross_blocks bs); [exact B|congruence|exact Z]). lra.
Qed.

Lemma pool_monotone : nondecreasing (pool w y).
Proof. destruct pool_is_blocks as (bs & B & ->). eapply expand_monotone; eassumption. Qed.

Lemma pool_best : best_monotone true w y (pool w y).
Proof.
  split; [exact pool_length|]. split; [exact pool_monotone|]. intros z Lz Z.
  pose proof (pool_gap z Lz Z). pose proof (spread_nonneg (combine w y) (combine_positive _ _ P) (pool w y) z). lra.
Qed.

Lemma pool_unique v : best_monotone true w y v -> v = pool w y.
Proof.
  intros (Lv & V & B). specialize (B (pool w y) pool_length pool_monotone).
  pose proof (pool_gap v Lv V). symmetry.
  apply (spread_zero (combine w y)).
  - now apply combine_positive.
  - rewrite combine_length, pool_length. lia.
  - rewrite combine_length, Lv. lia.
  - lra.
Qed.
End Pool.
