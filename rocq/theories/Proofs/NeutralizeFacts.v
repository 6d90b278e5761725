(** Neutralisation of a two-dimensional table. *)
From Coq Require Import List Bool Reals Lia Lra.
From Verif.Model Require Import Train Regularize.
From Verif.Spec Require Import RegularizeSpec.
From Verif.Proofs Require Import TrainFacts TrainExamples LinkFacts ImportanceFacts TotalFacts.
Import ListNotations.
Local Open Scope R_scope.

Lemma table_row n m t i : is_table n m t -> (i < n)%nat -> length (nth i t []) = m.
Proof. intros (L & H) I. apply H, nth_In. lia. Qed.
Lemma weighted_table n m t u : is_table n m t -> is_table n m u -> is_table n m (weighted t u).
Proof.
  intros T U. pose proof (proj1 T) as Lt. pose proof (proj1 U) as Lu. unfold weighted. split.
  - rewrite map2_length_eq; lia.
  - intros r I. apply (In_nth _ _ []) in I. destruct I as (i & I & <-). rewrite map2_length_eq in I by lia.
    rewrite (nth_map2_lt _ _ _ _ [] []) by lia. rewrite map2_length_eq.
    + apply (table_row n); auto; lia.
    + rewrite (table_row n m t), (table_row n m u); auto; lia.
Qed.
Lemma weighted_entry n m t u i j : is_table n m t -> is_table n m u -> (i < n)%nat -> (j < m)%nat ->
  entry (weighted t u) i j = entry t i j * entry u i j.
Proof.
  intros T U I J. unfold entry, weighted. rewrite (nth_map2_lt _ _ _ _ [] []) by (rewrite ?(proj1 T), ?(proj1 U); exact I).
  apply nth_map2_lt; [rewrite (table_row n m t)|rewrite (table_row n m u)]; auto.
Qed.
Lemma row_sums_entry n m t i : is_table n m t -> (i < n)%nat -> nth i (row_sums t) 0 = total m (fun j => entry t i j).
Proof.
  intros T I. unfold row_sums. rewrite (nth_map_lt _ _ _ []) by (rewrite (proj1 T); exact I).
  rewrite sumR_total, (table_row n m) by auto. reflexivity.
Qed.
Lemma row_sums_length n m t : is_table n m t -> length (row_sums t) = n.
Proof. intros T. unfold row_sums. rewrite map_length. apply T. Qed.
Lemma table_width n m t : is_table n m t -> (0 < n)%nat -> length (hd [] t) = m.
Proof. intros (L & H) N. destruct t as [|r t]; [cbn in L; lia|]. apply H. left. reflexivity. Qed.
Lemma col_sums_length n m t : is_table n m t -> (0 < n)%nat -> length (col_sums t) = m.
Proof. intros T N. unfold col_sums. rewrite map_length, seq_length. apply (table_width n); auto. Qed.
Lemma col_sums_entry n m t j : is_table n m t -> (0 < n)%nat -> (j < m)%nat -> nth j (col_sums t) 0 = total n (fun i => entry t i j).
Proof.
  intros T N J. unfold col_sums. rewrite (table_width n m) by auto. rewrite (nth_map_lt _ _ _ 0%nat) by (rewrite seq_length; exact J).
  rewrite seq_nth by exact J. cbn [plus]. rewrite (map_total _ _ []), (proj1 T). reflexivity.
Qed.

Definition sub_rows (t : table) (c : list R) : table := map2 (fun r c => map (fun v => v - c) r) t c.
Definition sub_cols (t : table) (c : list R) : table := map (fun r => map2 Rminus r c) t.
Lemma sub_rows_table n m t c : is_table n m t -> length c = n -> is_table n m (sub_rows t c).
Proof.
  intros T C. unfold sub_rows. split; [rewrite map2_length_eq; rewrite (proj1 T); auto|].
  intros r I. apply (In_nth _ _ []) in I. destruct I as (i & I & <-). rewrite map2_length_eq in I by (rewrite (proj1 T); auto).
  rewrite (proj1 T) in I. rewrite (nth_map2_lt _ _ _ _ [] 0) by (rewrite ?(proj1 T); lia). rewrite map_length. apply (table_row n); auto.
Qed.
Lemma sub_rows_entry n m t c i j : is_table n m t -> length c = n -> (i < n)%nat -> (j < m)%nat ->
  entry (sub_rows t c) i j = entry t i j - nth i c 0.
Proof.
  intros T C I J. unfold entry, sub_rows. rewrite (nth_map2_lt _ _ _ _ [] 0) by (rewrite ?(proj1 T); lia).
  apply (nth_map_lt (fun v => v - nth i c 0)). rewrite (table_row n m); auto.
Qed.
Lemma sub_cols_table n m t c : is_table n m t -> length c = m -> is_table n m (sub_cols t c).
Proof.
  intros T C. unfold sub_cols. split; [rewrite map_length; apply T|].
  intros r I. apply in_map_iff in I. destruct I as (r' & <- & I). rewrite map2_length_eq; [apply T, I|]. rewrite (proj2 T r' I). auto.
Qed.
Lemma sub_cols_entry n m t c i j : is_table n m t -> length c = m -> (i < n)%nat -> (j < m)%nat ->
  entry (sub_cols t c) i j = entry t i j - nth j c 0.
Proof.
  intros T C I J. unfold entry, sub_cols. rewrite (nth_map_lt _ _ _ []) by (rewrite (proj1 T); exact I).
  apply nth_map2_lt; [rewrite (table_row n m); auto|lia].
Qed.
Lemma table_ext n m t t' : is_table n m t -> is_table n m t' ->
  (forall i j, (i < n)%nat -> (j < m)%nat -> entry t i j = entry t' i j) -> t = t'.
Proof.
  intros T T' H. apply (nth_ext _ _ [] []); [rewrite (proj1 T), (proj1 T'); reflexivity|].
  intros i I. rewrite (proj1 T) in I. apply (nth_ext _ _ 0 0); [rewrite (table_row n m t), (table_row n m t'); auto|].
  intros j J. rewrite (table_row n m t) in J by auto. apply H; auto.
Qed.

Section Table.
Variables (n m : nat) (u : table).
Hypothesis U : is_table n m u.
Hypothesis N : (0 < n)%nat.
Hypothesis M : (0 < m)%nat.
Hypothesis P : positive_table n m u.

Definition round (values : table) (S0 : list R) : table :=
  let values := sub_rows values (map2 Rdiv S0 (row_sums u)) in
  sub_cols values (map2 Rdiv (col_sums (weighted values u)) (col_sums u)).
Definition round_deviation (values : table) : R :=
  sumR (map Rabs (row_sums (weighted values u))) + sumR (map Rabs (col_sums (weighted values u))).

Lemma loop_unfold fuel values S0 d it :
  neutralize_loop (S fuel) u (row_sums u) (col_sums u) values S0 d it =
  if Rltb (1 / 100) d && Nat.ltb it 4 then
    neutralize_loop fuel u (row_sums u) (col_sums u) (round values S0)
      (row_sums (weighted (round values S0) u)) (round_deviation (round values S0)) (it + 1)
  else Some (values, it).
Proof. reflexivity. Qed.

Lemma col_weight_pos j : (j < m)%nat -> 0 < total n (fun i => entry u i j).
Proof. intros J. apply total_all_pos; auto. Qed.
Lemma row_weight_pos i : (i < n)%nat -> 0 < total m (fun j => entry u i j).
Proof. intros I. apply total_all_pos; auto. Qed.

Lemma round_facts values : is_table n m values ->
  let values' := round values (row_sums (weighted values u)) in
  is_table n m values' /\ (forall j, (j < m)%nat -> column_influence n values' u j = 0) /\
  exists a b, forall i j, (i < n)%nat -> (j < m)%nat -> entry values' i j = entry values i j - (a i + b j).
Proof.
  intros V values'. pose proof (weighted_table _ _ _ _ V U) as W.
  set (c := map2 Rdiv (row_sums (weighted values u)) (row_sums u)) in *.
  assert (C : length c = n) by (unfold c; rewrite map2_length_eq; rewrite !(row_sums_length n m); auto).
  set (v1 := sub_rows values c). assert (V1 : is_table n m v1) by (apply sub_rows_table; auto).
  pose proof (weighted_table _ _ _ _ V1 U) as W1.
  set (b := map2 Rdiv (col_sums (weighted v1 u)) (col_sums u)).
  assert (B : length b = m) by (unfold b; rewrite map2_length_eq; rewrite !(col_sums_length n m); auto).
  assert (E : values' = sub_cols v1 b) by reflexivity.
  rewrite E. split; [apply sub_cols_table; auto|]. split.
  - intros j J. unfold column_influence.
    rewrite (total_ext n _ (fun i => entry v1 i j * entry u i j - entry u i j * nth j b 0)).
    2:{ intros i I. rewrite (sub_cols_entry n m) by auto. ring. }
    rewrite total_minus, total_scal_r. unfold b.
    rewrite (nth_map2_lt _ _ _ _ 0 0) by (rewrite (col_sums_length n m); auto).
    rewrite !(col_sums_entry n m) by auto.
    rewrite (total_ext n (fun i => entry (weighted v1 u) i j) (fun i => entry v1 i j * entry u i j)) by (intros; apply (weighted_entry n m); auto).
    pose proof (col_weight_pos j J). field. lra.
  - exists (fun i => nth i c 0), (fun j => nth j b 0). intros i j I J.
    rewrite (sub_cols_entry n m) by auto. unfold v1. rewrite (sub_rows_entry n m) by auto. ring.
Qed.
Lemma deviation_value values : is_table n m values ->
  round_deviation values = total n (fun i => Rabs (row_influence m values u i)) + total m (fun j => Rabs (column_influence n values u j)).
Proof.
  intros V. pose proof (weighted_table _ _ _ _ V U) as W. unfold round_deviation. f_equal.
  - rewrite (map_total _ _ 0), (row_sums_length n m) by auto. apply total_ext. intros i I. f_equal.
    rewrite (row_sums_entry n m) by auto. apply total_ext. intros j J. apply (weighted_entry n m); auto.
  - rewrite (map_total _ _ 0), (col_sums_length n m) by auto. apply total_ext. intros j J. f_equal.
    rewrite (col_sums_entry n m) by auto. apply total_ext. intros i I. apply (weighted_entry n m); auto.
Qed.

Definition clean (values r : table) (it : nat) : Prop :=
  is_table n m r /\ (forall j, (j < m)%nat -> column_influence n r u j = 0) /\
  (exists a b, forall i j, (i < n)%nat -> (j < m)%nat -> entry r i j = entry values i j - (a i + b j)) /\
  (1 <= it <= 4)%nat /\ (total n (fun i => Rabs (row_influence m r u i)) <= 1 / 100 \/ it = 4%nat).

Lemma loop_clean values0 : forall fuel values it, (1 <= it <= 4)%nat -> (5 - it <= fuel)%nat -> is_table n m values ->
  (forall j, (j < m)%nat -> column_influence n values u j = 0) ->
  (exists a b, forall i j, (i < n)%nat -> (j < m)%nat -> entry values i j = entry values0 i j - (a i + b j)) ->
  exists r it', neutralize_loop fuel u (row_sums u) (col_sums u) values (row_sums (weighted values u)) (round_deviation values) it
    = Some (r, it') /\ clean values0 r it'.
Proof.
  induction fuel as [|fuel IH]; intros values it I F V C AB; [lia|]. rewrite loop_unfold.
  destruct (Rltb (1 / 100) (round_deviation values)) eqn:D; [destruct (Nat.ltb_spec it 4) as [K|K]|]; cbn [andb].
  - destruct (round_facts values V) as (V' & C' & a' & b' & AB'). apply IH; auto; try lia.
    destruct AB as (a & b & AB). exists (fun i => a i + a' i), (fun j => b j + b' j). intros i j Hi Hj.
    rewrite AB', AB by auto. ring.
  - exists values, it. split; [reflexivity|]. split; [exact V|]. split; [exact C|]. split; [exact AB|]. split; [exact I|]. right. lia.
  - exists values, it. split; [reflexivity|]. split; [exact V|]. split; [exact C|]. split; [exact AB|]. split; [exact I|]. left.
    apply Rltb_false in D. rewrite deviation_value in D by exact V.
    pose proof (total_nonneg m (fun j => Rabs (column_influence n values u j)) (fun _ _ => Rabs_pos _)). lra.
Qed.

Lemma neutralized_clean values fuel : is_table n m values -> (5 <= fuel)%nat ->
  exists r it, neutralize_one_dim_influence fuel values u = Some (r, it) /\ clean values r it.
Proof.
  intros V F. unfold neutralize_one_dim_influence. destruct fuel as [|fuel]; [lia|]. rewrite loop_unfold.
  replace (Rltb (1 / 100) 100) with true by (symmetry; apply Rltb_iff; lra). cbn [andb Nat.ltb Nat.leb].
  destruct (round_facts values V) as (V' & C' & AB'). apply loop_clean; auto; lia.
Qed.

Lemma neutral_unchanged values fuel : is_table n m values -> (5 <= fuel)%nat ->
  (forall i, (i < n)%nat -> row_influence m values u i = 0) -> (forall j, (j < m)%nat -> column_influence n values u j = 0) ->
  neutralize_one_dim_influence fuel values u = Some (values, 1%nat).
Proof.
  intros V F Rz Cz. unfold neutralize_one_dim_influence. destruct fuel as [|fuel]; [lia|]. rewrite loop_unfold.
  replace (Rltb (1 / 100) 100) with true by (symmetry; apply Rltb_iff; lra). cbn [andb Nat.ltb Nat.leb].
  assert (E : round values (row_sums (weighted values u)) = values).
  { pose proof (weighted_table _ _ _ _ V U) as W.
    set (c := map2 Rdiv (row_sums (weighted values u)) (row_sums u)).
    assert (C : length c = n) by (unfold c; rewrite map2_length_eq; rewrite !(row_sums_length n m); auto).
    assert (E1 : sub_rows values c = values).
    { apply (table_ext n m); auto; [apply sub_rows_table; auto|]. intros i j I J. rewrite (sub_rows_entry n m) by auto.
      unfold c. rewrite (nth_map2_lt _ _ _ _ 0 0) by (rewrite (row_sums_length n m); auto).
      rewrite (row_sums_entry n m _ i W I).
      rewrite (total_ext m _ (fun j => entry values i j * entry u i j)) by (intros; apply (weighted_entry n m); auto).
      fold (row_influence m values u i). rewrite Rz by exact I. unfold Rdiv. ring. }
    unfold round. fold c. rewrite E1.
    set (b := map2 Rdiv (col_sums (weighted values u)) (col_sums u)).
    assert (B : length b = m) by (unfold b; rewrite map2_length_eq; rewrite !(col_sums_length n m); auto).
    apply (table_ext n m); auto; [apply sub_cols_table; auto|]. intros i j I J. rewrite (sub_cols_entry n m) by auto.
    unfold b. rewrite (nth_map2_lt _ _ _ _ 0 0) by (rewrite (col_sums_length n m); auto).
    rewrite (col_sums_entry n m _ j W N J).
    rewrite (total_ext n _ (fun i => entry values i j * entry u i j)) by (intros; apply (weighted_entry n m); auto).
    fold (column_influence n values u j). rewrite Cz by exact J. unfold Rdiv. ring. }
  rewrite E. destruct fuel as [|fuel]; [lia|]. rewrite loop_unfold.
  replace (Rltb (1 / 100) (round_deviation values)) with false; [reflexivity|]. symmetry. apply Rltb_false.
  rewrite deviation_value by exact V.
  rewrite (total_ext n _ (fun _ => 0)) by (intros i I; rewrite Rz by exact I; apply Rabs_R0).
  rewrite (total_ext m _ (fun _ => 0)) by (intros i I; rewrite Cz by exact I; apply Rabs_R0).
  rewrite !total_zero. lra.
Qed.
End Table.
