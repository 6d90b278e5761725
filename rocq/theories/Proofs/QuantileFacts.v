(** Facts about quantile costs and weighted quantiles. *)
From Coq Require Import ZArith List Bool Reals Permutation Sorted Lia Lra.
From Verif.Model Require Import Train Quantile.
From Verif.Spec Require Import QuantileSpec.
From Verif.Proofs Require Import TrainFacts TrainExamples LinkFacts OrthoFacts.
Import ListNotations.
Local Open Scope R_scope.

(** ** Costs *)
Lemma pinball_cases q p y : pinball q p y = if Rlt_dec y p then (1 - q) * (p - y) else q * (y - p).
Proof.
  unfold pinball. destruct (Rlt_dec y p) as [H|H].
  - rewrite (proj2 (Rltb_iff y p)), (proj2 (Rleb_false p y)) by lra. ring.
  - rewrite (proj2 (Rltb_false y p)), (proj2 (Rleb_iff p y)) by lra. ring.
Qed.
Lemma pinball_nonneg q p y : 0 <= q <= 1 -> 0 <= pinball q p y.
Proof. intro H. rewrite pinball_cases. destruct (Rlt_dec y p); nra. Qed.
Lemma pinball_zero q p y : 0 < q < 1 -> pinball q p y <= 0 -> p = y.
Proof. intros H. rewrite pinball_cases. destruct (Rlt_dec y p); nra. Qed.
Lemma pinball_self q y : pinball q y y = 0.
Proof. rewrite pinball_cases. destruct (Rlt_dec y y); ring. Qed.

Lemma costs_eq p y w q : y <> [] -> sumR w <> 0 ->
  quantile_costs p y w q = Some (sumR (map2 Rmult (map2 (pinball q) p y) w) / sumR w).
Proof. intros NE NW. unfold quantile_costs. destruct y; [congruence|]. now rewrite (proj2 (Reqb_false_iff _ _) NW). Qed.

Lemma products_nonneg q : 0 <= q <= 1 -> forall p y w, (forall x, In x w -> 0 <= x) ->
  0 <= sumR (map2 Rmult (map2 (pinball q) p y) w).
Proof.
  intro Hq. induction p as [|a p IH]; intros [|b y] [|c w] H; cbn [map2 sumR]; try lra.
  assert (0 <= pinball q a b * c) by (apply Rmult_le_pos; [now apply pinball_nonneg|apply H; now left]).
  specialize (IH y w (fun x I => H x (or_intror I))). lra.
Qed.
Lemma costs_nonneg p y w q : 0 <= q <= 1 -> (forall x, In x w -> 0 <= x) -> 0 < sumR w ->
  exists c, quantile_costs p y w q = Some c /\ 0 <= c.
Proof.
  intros Hq H W. destruct y as [|y0 y]; [exists 0; split; [reflexivity|lra]|].
  rewrite costs_eq by (try congruence; lra). eexists. split; [reflexivity|].
  apply Rmult_le_pos; [now apply products_nonneg|]. left. now apply Rinv_0_lt_compat.
Qed.
Lemma costs_zero p y w q : 0 < q < 1 -> y <> [] -> length p = length y -> length w = length y -> (forall x, In x w -> 0 < x) ->
  (quantile_costs p y w q = Some 0 <-> p = y).
Proof.
  intros Hq NE L1 L2 H.
  assert (W : 0 < sumR w).
  { destruct w as [|a w]; [destruct y; [congruence|discriminate]|]. cbn [sumR]. pose proof (H a (or_introl eq_refl)).
    assert (0 <= sumR w); [|lra]. rewrite <- (map_id w). apply sumR_nonneg. intros x I. left. apply H. now right. }
  rewrite costs_eq by (auto; lra). split.
  - intro E. injection E as E. assert (Z : sumR (map2 Rmult (map2 (pinball q) p y) w) = 0).
    { apply (Rmult_eq_reg_r (/ sumR w)); [|apply Rinv_neq_0_compat; lra]. unfold Rdiv in E. rewrite E. ring. }
    clear - Z Hq L1 L2 H. revert y w L1 L2 H Z. induction p as [|a p IH]; intros [|b y] [|c w] L1 L2 H Z; try discriminate; [reflexivity|].
    cbn [map2 sumR] in Z. assert (Pc : 0 < c) by (apply H; now left).
    assert (Np : 0 <= pinball q a b) by (apply pinball_nonneg; lra).
    assert (Nr : 0 <= sumR (map2 Rmult (map2 (pinball q) p y) w)) by (apply products_nonneg; [lra|intros x I; left; apply H; now right]).
    assert (pinball q a b * c = 0) by nra.
    f_equal; [apply (pinball_zero q); [exact Hq|nra]|].
    apply (IH y w); [now injection L1|now injection L2|intros x I; apply H; now right|nra].
  - intros ->. f_equal. replace (sumR (map2 Rmult (map2 (pinball q) y y) w)) with 0; [unfold Rdiv; ring|].
    clear. revert w. induction y as [|b y IH]; intros [|c w]; cbn [map2 sumR]; try reflexivity. rewrite pinball_self, <- IH. ring.
Qed.

(** ** Constant predictions *)
Definition total_costs (q : R) (rows : list qrow) (c : R) : R := sumR (map (fun r => pinball q c (fst r) * snd r) rows).
Lemma constant_total q rows c : rows <> [] -> total_weight rows <> 0 ->
  constant_costs q rows c = Some (total_costs q rows c / total_weight rows).
Proof.
  intros NE NW. unfold constant_costs. rewrite costs_eq; [|destruct rows; [congruence|discriminate]|exact NW].
  do 2 f_equal. unfold total_costs. clear. induction rows as [|[y w] rows IH]; cbn [map map2 sumR fst snd]; [reflexivity|]. now rewrite IH.
Qed.

Lemma total_diff_up q rows v c : (forall r, In r rows -> 0 <= snd r) -> v <= c ->
  (c - v) * (weight_upto v rows - q * total_weight rows) <= total_costs q rows c - total_costs q rows v.
Proof.
  intros H Hc. unfold weight_upto, total_weight, total_costs. induction rows as [|[y w] rows IH]; cbn [map sumR fst snd]; [lra|].
  specialize (IH (fun r I => H r (or_intror I))). assert (0 <= w) by (apply (H (y, w)); now left).
  assert (P : (c - v) * ((if Rle_dec y v then w else 0) - q * w) <= pinball q c y * w - pinball q v y * w); [|lra].
  rewrite !pinball_cases. destruct (Rle_dec y v), (Rlt_dec y c), (Rlt_dec y v); try lra; try nra.
Qed.
Lemma total_diff_down q rows v c : (forall r, In r rows -> 0 <= snd r) -> c <= v ->
  (v - c) * (q * total_weight rows - weight_below v rows) <= total_costs q rows c - total_costs q rows v.
Proof.
  intros H Hc. unfold weight_below, total_weight, total_costs. induction rows as [|[y w] rows IH]; cbn [map sumR fst snd]; [lra|].
  specialize (IH (fun r I => H r (or_intror I))). assert (0 <= w) by (apply (H (y, w)); now left).
  assert (P : (v - c) * (q * w - (if Rlt_dec y v then w else 0)) <= pinball q c y * w - pinball q v y * w); [|lra].
  rewrite !pinball_cases. destruct (Rlt_dec y v), (Rlt_dec y c); try lra; try nra.
Qed.

Lemma quantile_minimises q rows v c : weighted_rows rows -> is_quantile q rows v ->
  exists a b, constant_costs q rows v = Some a /\ constant_costs q rows c = Some b /\ a <= b.
Proof.
  intros [H W] (I & U & B). assert (NE : rows <> []) by (intros ->; destruct I).
  rewrite !constant_total by (auto; lra). do 2 eexists. split; [reflexivity|]. split; [reflexivity|].
  apply Rmult_le_compat_r; [left; now apply Rinv_0_lt_compat|].
  destruct (Rle_dec v c) as [L|L].
  - pose proof (total_diff_up q rows v c H L). nra.
  - pose proof (total_diff_down q rows v c H ltac:(lra)). nra.
Qed.

(** ** Weighted quantiles *)
Lemma sumR_perm l l' : Permutation l l' -> sumR l = sumR l'.
Proof. induction 1; cbn [sumR]; lra. Qed.
Lemma total_perm a b : Permutation a b -> total_weight a = total_weight b.
Proof. intro P. apply sumR_perm. now apply Permutation_map. Qed.
Lemma upto_perm v a b : Permutation a b -> weight_upto v a = weight_upto v b.
Proof. intro P. apply sumR_perm. now apply Permutation_map. Qed.
Lemma below_perm v a b : Permutation a b -> weight_below v a = weight_below v b.
Proof. intro P. apply sumR_perm. now apply Permutation_map. Qed.
Lemma quantile_perm q a b v : Permutation a b -> is_quantile q a v -> is_quantile q b v.
Proof.
  intros P (I & U & B). unfold is_quantile. rewrite <- (total_perm a b P), <- (upto_perm v a b P), <- (below_perm v a b P).
  split; [|split; assumption]. eapply Permutation_in; [apply Permutation_map; exact P|exact I].
Qed.

Lemma total_app a b : total_weight (a ++ b) = total_weight a + total_weight b.
Proof. unfold total_weight. induction a as [|x a IH]; cbn [map app sumR]; lra. Qed.
Lemma total_nonneg rows : (forall r, In r rows -> 0 <= snd r) -> 0 <= total_weight rows.
Proof. intro H. now apply sumR_nonneg. Qed.

(** The first target that reaches the cutoff. *)
Lemma reaching_first cutoff s : forall acc v l, acc < cutoff -> reaching acc cutoff s = v :: l ->
  exists s1 w s2, s = s1 ++ (v, w) :: s2 /\ acc + total_weight s1 < cutoff /\ cutoff <= acc + total_weight s1 + w.
Proof.
  unfold total_weight. induction s as [|[y w] s IH]; intros acc v l A E; cbn [reaching] in E; [discriminate|].
  destruct (Rleb cutoff (acc + w)) eqn:C.
  - injection E as <- _. exists [], w, s. apply Rleb_iff in C. cbn. split; [reflexivity|lra].
  - apply Rleb_false in C. destruct (IH (acc + w) v l C E) as (s1 & w' & s2 & -> & H1 & H2).
    exists ((y, w) :: s1), w', s2. cbn [map sumR fst snd app]. split; [reflexivity|lra].
Qed.
Lemma reaching_some cutoff s : forall acc, s <> [] -> cutoff <= acc + total_weight s -> exists v l, reaching acc cutoff s = v :: l.
Proof.
  unfold total_weight. induction s as [|[y w] s IH]; intros acc NE H; [congruence|]. cbn [reaching map sumR fst snd] in *.
  destruct (Rleb cutoff (acc + w)) eqn:C; [eauto|]. apply Rleb_false in C.
  destruct s as [|r s]; [cbn in H; lra|]. apply IH; [discriminate|lra].
Qed.

Lemma sorted_split s1 v w s2 : StronglySorted (fun a b : qrow => fst a <= fst b) (s1 ++ (v, w) :: s2) ->
  (forall r, In r s1 -> fst r <= v) /\ (forall r, In r s2 -> v <= fst r).
Proof.
  induction s1 as [|r s1 IH]; cbn; intro S; inversion S as [|? ? S' F]; subst.
  - split; [intros ? []|]. intros r I. rewrite Forall_forall in F. apply (F r I).
  - destruct (IH S') as [A B]. split; [|exact B]. intros r' [<-|I]; [|now apply A].
    rewrite Forall_forall in F. apply (F (v, w)). apply in_or_app. right. now left.
Qed.

Lemma upto_ge s1 v w s2 : (forall r, In r (s1 ++ (v, w) :: s2) -> 0 <= snd r) -> (forall r, In r s1 -> fst r <= v) ->
  total_weight s1 + w <= weight_upto v (s1 ++ (v, w) :: s2).
Proof.
  intros H A. unfold total_weight, weight_upto. induction s1 as [|r s1 IH]; cbn [app map sumR fst snd].
  - destruct (Rle_dec v v) as [_|N]; [|lra].
    assert (0 <= sumR (map (fun r => if Rle_dec (fst r) v then snd r else 0) s2)); [|lra].
    apply sumR_nonneg. intros r I. destruct (Rle_dec (fst r) v); [|lra]. apply H. now right.
  - specialize (IH (fun r' I => H r' (or_intror I)) (fun r' I => A r' (or_intror I))).
    destruct (Rle_dec (fst r) v) as [_|N]; [|exfalso; apply N; apply A; now left]. lra.
Qed.
Lemma below_le s1 v w s2 : (forall r, In r (s1 ++ (v, w) :: s2) -> 0 <= snd r) -> (forall r, In r s2 -> v <= fst r) ->
  weight_below v (s1 ++ (v, w) :: s2) <= total_weight s1.
Proof.
  intros H B. unfold total_weight, weight_below. induction s1 as [|r s1 IH]; cbn [app map sumR fst snd].
  - destruct (Rlt_dec v v) as [N|_]; [lra|]. rewrite (sumR_map_ext_in _ (fun _ => 0)); [rewrite sumR_map_zero; lra|].
    intros r I. destruct (Rlt_dec (fst r) v) as [L|_]; [|reflexivity]. pose proof (B r I). lra.
  - specialize (IH (fun r' I => H r' (or_intror I))). assert (0 <= snd r) by (apply H; now left).
    destruct (Rlt_dec (fst r) v); lra.
Qed.

Lemma reaching_quantile s q v l : StronglySorted (fun a b : qrow => fst a <= fst b) s -> weighted_rows s -> 0 < q ->
  reaching 0 (total_weight s * q) s = v :: l -> is_quantile q s v.
Proof.
  intros S [H W] Hq E. destruct (reaching_first _ _ _ _ _ (Rmult_lt_0_compat _ _ W Hq) E) as (s1 & w & s2 & -> & H1 & H2).
  destruct (sorted_split _ _ _ _ S) as [A B]. rewrite Rplus_0_l in H1, H2. unfold is_quantile.
  pose proof (upto_ge s1 v w s2 H A). pose proof (below_le s1 v w s2 H B).
  split; [rewrite map_app; apply in_or_app; right; now left|]. split; lra.
Qed.

Lemma weighted_quantile_ok sort q rows : sorts sort -> weighted_rows rows -> 0 < q <= 1 ->
  exists v, weighted_quantile sort q rows = Some v /\ is_quantile q rows v.
Proof.
  intros HS HW Hq. destruct (HS rows) as [P S].
  assert (HW' : weighted_rows (sort rows)).
  { destruct HW as [H W]. split; [|now rewrite (total_perm _ _ P)]. intros r I. apply H. now apply (Permutation_in r P). }
  assert (NE : sort rows <> []) by (intro E; rewrite E in HW'; destruct HW' as [_ W]; cbn in W; lra).
  unfold weighted_quantile. cbv zeta. fold (total_weight (sort rows)).
  destruct (reaching_some (total_weight (sort rows) * q) (sort rows) 0 NE) as (v & l & E).
  { destruct HW' as [_ W]. nra. }
  rewrite E. exists v. split; [reflexivity|]. apply (quantile_perm q (sort rows)); [exact P|].
  now apply (reaching_quantile (sort rows) q v l).
Qed.

Lemma median_half sort rows : weighted_median sort rows = weighted_quantile sort (1 / 2) rows.
Proof. unfold weighted_median, weighted_quantile. cbv zeta. replace (sumR (map snd (sort rows)) / 2) with (sumR (map snd (sort rows)) * (1 / 2)) by field. reflexivity. Qed.

(** Quantiles are ordered. *)
Lemma quantile_monotone rows q1 q2 v1 v2 : weighted_rows rows -> q1 <= q2 -> is_quantile q1 rows v1 -> is_quantile q2 rows v2 -> v1 <= v2.
Proof.
  intros [H W] Hq (_ & _ & B1) (_ & U2 & _). destruct (Rle_dec v1 v2) as [L|N]; [exact L|]. exfalso.
  assert (weight_upto v2 rows <= weight_below v1 rows).
  { unfold weight_upto, weight_below. clear - H N. induction rows as [|r rows IH]; cbn [map sumR]; [lra|].
    specialize (IH (fun r' I => H r' (or_intror I))). assert (0 <= snd r) by (apply H; now left).
    destruct (Rle_dec (fst r) v2), (Rlt_dec (fst r) v1); lra. }
  nra.
Qed.
Lemma quantile_range rows q v : is_quantile q rows v -> exists lo hi, In lo (map fst rows) /\ In hi (map fst rows) /\
  (forall r, In r rows -> lo <= fst r <= hi) /\ lo <= v <= hi.
Proof.
  intros (I & _). assert (E : exists lo hi, In lo (map fst rows) /\ In hi (map fst rows) /\ (forall x, In x (map fst rows) -> lo <= x <= hi)).
  { generalize dependent (map fst rows). intros l. revert v. induction l as [|a l IH]; intros v I; [destruct I|].
    destruct l as [|b l].
    - exists a, a. split; [now left|]. split; [now left|]. intros x [<-|[]]. lra.
    - destruct (IH b (or_introl eq_refl)) as (lo & hi & I1 & I2 & R).
      exists (Rmin a lo), (Rmax a hi). split; [unfold Rmin; destruct (Rle_dec a lo); [now left|now right]|].
      split; [unfold Rmax; destruct (Rle_dec a hi); [now right|now left]|].
      intros x [<-|Ix]; [split; [apply Rmin_l|apply Rmax_l]|].
      destruct (R x Ix). pose proof (Rmin_r a lo). pose proof (Rmax_r a hi). lra. }
  destruct E as (lo & hi & I1 & I2 & R). exists lo, hi. split; [exact I1|]. split; [exact I2|]. split; [|now apply R].
  intros r Ir. apply R. now apply in_map.
Qed.

(** ** Groups *)
Lemma insert_key_in k l x : In x (insert_key k l) <-> x = k \/ In x l.
Proof.
  induction l as [|a l IH]; cbn; [intuition|]. destruct (Z.ltb_spec k a); [cbn; intuition|].
  destruct (Z.eqb_spec k a); [subst; cbn; intuition|]. cbn. rewrite IH. intuition.
Qed.
Lemma insert_key_sorted k l : StronglySorted Z.lt l -> StronglySorted Z.lt (insert_key k l).
Proof.
  induction l as [|a l IH]; cbn; intro S; [repeat constructor|]. inversion S as [|? ? S' F]; subst.
  destruct (Z.ltb_spec k a).
  - constructor; [exact S|]. constructor; [lia|]. rewrite Forall_forall in *. intros x I. specialize (F x I). lia.
  - destruct (Z.eqb_spec k a); [exact S|]. constructor; [now apply IH|]. rewrite Forall_forall in *. intros x I.
    apply insert_key_in in I. destruct I as [->|I]; [lia|now apply F].
Qed.
Lemma group_keys_ok bins : StronglySorted Z.lt (group_keys bins) /\ forall k, In k (group_keys bins) <-> In k bins.
Proof.
  unfold group_keys. induction bins as [|b bins [S I]]; cbn [fold_right]; [split; [constructor|intuition]|].
  split; [now apply insert_key_sorted|]. intro k. rewrite insert_key_in, I. cbn. intuition.
Qed.
Lemma group_rows_filter k bins rows : group_rows k bins rows = map snd (filter (fun p => Z.eqb (fst p) k) (combine bins rows)).
Proof.
  revert rows. induction bins as [|b bins IH]; intros [|r rows]; cbn; try reflexivity. rewrite IH. now destruct (Z.eqb b k).
Qed.
Lemma binned_quantile sort q bins rows k v : sorts sort -> 0 < q <= 1 -> weighted_rows (group_rows k bins rows) ->
  In (k, v) (calc_weighted_quantile sort bins rows q) -> exists x, v = Some x /\ is_quantile q (group_rows k bins rows) x.
Proof.
  intros S Hq W I. unfold calc_weighted_quantile in I. apply in_map_iff in I. destruct I as (k' & E & _). injection E as -> <-.
  now apply weighted_quantile_ok.
Qed.
Lemma binned_keys sort q bins rows : map fst (calc_weighted_quantile sort bins rows q) = group_keys bins.
Proof. unfold calc_weighted_quantile. rewrite map_map. apply map_id. Qed.
