(** Facts about the meta-smoothers of feature groups of two columns. *)
From Coq Require Import ZArith List Bool Reals Lia Lra.
From Verif.Model Require Import Num LexBins Train Regularize BinSmoothers TableSmoothers.
From Verif.Spec Require Import LexSpec RegularizeSpec TableSpec.
From Verif.Proofs Require Import TrainFacts LinkFacts ImportanceFacts TotalFacts LexFacts NeutralizeFacts RegularizeFacts.
Import ListNotations.
Local Open Scope R_scope.

Lemma at_bins_nth n m l i j : at_bins n m l i j = nth (i * m + j) l 0.
Proof. unfold at_bins. f_equal. cbn [number size]. rewrite Z.mul_1_r, Z.mul_1_r, Z.add_0_r. lia. Qed.

(** ** The shape of the table *)
Lemma fold_max l M : (0 <= M)%Z -> (forall x, In x l -> (x <= M)%Z) -> In M l -> fold_right Z.max 0%Z l = M.
Proof.
  intros P H I. apply Z.le_antisymm.
  - clear I. induction l as [|x l IH]; cbn [fold_right]; [exact P|]. apply Z.max_lub; [apply H; left; reflexivity|].
    apply IH. intros y Y. apply H. right. exact Y.
  - clear H. induction l as [|x l IH]; [destruct I|]. cbn [fold_right]. destruct I as [->|I]; [apply Z.le_max_l|].
    specialize (IH I). lia.
Qed.
Lemma digit_valid n : forall t d, valid_tuple n t -> (d < length n)%nat -> (0 <= nth d t 0 < nth d n 0)%Z.
Proof. intros t d V. revert d. induction V as [|k i n t B V IH]; intros [|d] D; cbn [length] in D; cbn [nth]; try lia. apply IH. lia. Qed.
Lemma group_bins ns d : shape ns -> (d < length ns)%nat -> table_bins d (arange_multi ns) = Z.to_nat (nth d ns 0%Z).
Proof.
  intros S D. unfold table_bins. pose proof (size_pos ns S) as P.
  assert (K : (0 < nth d ns 0)%Z) by (unfold shape in S; rewrite Forall_forall in S; apply S, nth_In; exact D).
  rewrite (fold_max _ (nth d ns 0 - 1)%Z); [lia|lia| |].
  - intros x I. rewrite (arange_multi_rows ns S), map_map in I. apply in_map_iff in I. destruct I as (i & <- & _).
    pose proof (digit_valid ns _ d (digits_valid ns S (Z.of_nat i)) D). lia.
  - set (t := map (fun k => (k - 1)%Z) ns).
    assert (V : valid_tuple ns t).
    { unfold t, valid_tuple. clear -S. induction S as [|k r H S IH]; cbn [map]; constructor; [lia|exact IH]. }
    pose proof (number_range ns t V) as B.
    rewrite (arange_multi_rows ns S), map_map. apply in_map_iff. exists (Z.to_nat (number ns t)). split.
    + rewrite Z2Nat.id by lia.
      rewrite (number_injective ns (digits ns (number ns t)) t (digits_valid ns S _) V (number_digits ns S _ B)).
      unfold t. rewrite (nth_map_lt _ _ _ 0%Z) by exact D. reflexivity.
    + apply in_seq. lia.
Qed.

Lemma reshape_table n m l : length l = (n * m)%nat ->
  exists t, reshape n m l = Some t /\ is_table n m t /\ forall i j, (i < n)%nat -> (j < m)%nat -> entry t i j = nth (i * m + j) l 0.
Proof.
  intros L. unfold reshape. rewrite L, Nat.eqb_refl. eexists. split; [reflexivity|]. split.
  - split; [rewrite map_length, seq_length; reflexivity|]. intros r I. apply in_map_iff in I. destruct I as (i & <- & I). apply in_seq in I.
    rewrite firstn_length, skipn_length, L. nia.
  - intros i j Hi Hj. unfold entry. rewrite (nth_map_lt _ _ _ 0%nat) by (rewrite seq_length; exact Hi).
    rewrite seq_nth by exact Hi. cbn [Nat.add].
    assert (T : forall (k : nat) (x : list R), (j < k)%nat -> nth j (firstn k x) 0 = nth j x 0).
    { clear. induction j as [|j IH]; intros [|k] [|a x] H; cbn; try lia; try reflexivity. apply IH. lia. }
    rewrite T by exact Hj. clear. revert l. induction (i * m)%nat as [|k IH]; intros [|a l]; cbn [skipn Nat.add nth]; try reflexivity.
    + destruct j; reflexivity.
    + apply IH.
Qed.
Lemma concat_table m : forall t n, is_table n m t ->
  length (concat t) = (n * m)%nat /\ forall i j, (i < n)%nat -> (j < m)%nat -> nth (i * m + j) (concat t) 0 = entry t i j.
Proof.
  induction t as [|r t IH]; intros n (L & H).
  - cbn in L. subst n. split; [reflexivity|]. intros. lia.
  - destruct n as [|n]; [discriminate|]. cbn [length] in L.
    assert (Lr : length r = m) by (apply H; left; reflexivity).
    destruct (IH n) as (A & B); [split; [lia|intros x I; apply H; right; exact I]|]. cbn [concat]. split.
    + rewrite app_length, Lr, A. lia.
    + intros [|i] j Hi Hj.
      * cbn [Nat.mul Nat.add]. rewrite app_nth1 by lia. reflexivity.
      * rewrite app_nth2 by nia. replace (S i * m + j - length r)%nat with (i * m + j)%nat by nia. rewrite B by lia. reflexivity.
Qed.

(** ** Neutralised values *)
Section Two.
Variables (n m : nat).
Hypothesis N : (0 < n)%nat.
Hypothesis M : (0 < m)%nat.

Lemma two_shape : shape [Z.of_nat n; Z.of_nat m].
Proof. constructor; [lia|constructor; [lia|constructor]]. Qed.
Lemma values_table u values : per_bin n m u -> per_bin n m values ->
  exists tv tu, is_table n m tv /\ is_table n m tu /\
    (forall i j, (i < n)%nat -> (j < m)%nat -> entry tv i j = at_bins n m values i j) /\
    (forall i j, (i < n)%nat -> (j < m)%nat -> entry tu i j = at_bins n m u i j) /\
    neutralized_values (two_columns n m) u values =
      match neutralize_one_dim_influence 5 tv tu with Some (r, _) => Some (concat r) | None => None end.
Proof.
  intros U V. destruct (reshape_table n m values V) as (tv & Ev & Tv & Hv). destruct (reshape_table n m u U) as (tu & Eu & Tu & Hu).
  exists tv, tu. split; [exact Tv|]. split; [exact Tu|].
  split; [intros i j Hi Hj; rewrite Hv, at_bins_nth by assumption; reflexivity|].
  split; [intros i j Hi Hj; rewrite Hu, at_bins_nth by assumption; reflexivity|].
  unfold neutralized_values, two_columns.
  rewrite !group_bins by (try exact two_shape; cbn; lia). cbn [nth]. rewrite !Nat2Z.id, Ev, Eu.
  rewrite (arange_multi_rows _ two_shape).
  destruct (Z.to_nat (size [Z.of_nat n; Z.of_nat m])) as [|k] eqn:K; [cbn [size] in K; nia|]. reflexivity.
Qed.

Lemma neutralised_facts u values : per_bin n m u -> positive_bins n m u -> per_bin n m values ->
  exists y, neutralized_values (two_columns n m) u values = Some y /\ per_bin n m y /\
    (forall j, (j < m)%nat -> second_effect n m y u j = 0) /\
    exists a b, with_effects n m a b y values.
Proof.
  intros U PU V. destruct (values_table u values U V) as (tv & tu & Tv & Tu & Hv & Hu & E). rewrite E.
  destruct (neutralized_clean n m tu Tu N M) with (values := tv) (fuel := 5%nat) as (r & it & Er & Tr & Cr & (a & b & AB) & _);
    [intros i j Hi Hj; rewrite Hu by assumption; apply PU; assumption|exact Tv|lia|].
  rewrite Er. destruct (concat_table m r n Tr) as (Lr & Hr).
  exists (concat r). split; [reflexivity|]. split; [exact Lr|]. split.
  - intros j Hj. rewrite <- (Cr j Hj). unfold second_effect, column_influence. apply total_ext. intros i Hi.
    rewrite at_bins_nth, Hr, Hu by assumption. reflexivity.
  - exists a, b. intros i j Hi Hj. rewrite (at_bins_nth n m (concat r)), Hr, AB, Hv by assumption. ring.
Qed.

(** Effects of single columns that are balanced over the other one do not matter. *)
Lemma round_same tu v v' a b B : is_table n m tu -> positive_table n m tu -> is_table n m v -> is_table n m v' ->
  (forall i j, (i < n)%nat -> (j < m)%nat -> entry v' i j = entry v i j + a i + b j) ->
  (forall i, (i < n)%nat -> total m (fun j => b j * entry tu i j) = B * total m (fun j => entry tu i j)) ->
  round tu v' (row_sums (weighted v' tu)) = round tu v (row_sums (weighted v tu)).
Proof.
  intros U P V V' E H. pose proof (weighted_table _ _ _ _ V U) as W. pose proof (weighted_table _ _ _ _ V' U) as W'.
  unfold round.
  set (c := map2 Rdiv (row_sums (weighted v tu)) (row_sums tu)). set (c' := map2 Rdiv (row_sums (weighted v' tu)) (row_sums tu)).
  assert (C : length c = n) by (unfold c; rewrite map2_length_eq; rewrite !(row_sums_length n m); auto).
  assert (C' : length c' = n) by (unfold c'; rewrite map2_length_eq; rewrite !(row_sums_length n m); auto).
  assert (EC : forall i, (i < n)%nat -> nth i c' 0 = nth i c 0 + a i + B).
  { intros i I. unfold c, c'. rewrite !(nth_map2_lt _ _ _ _ 0 0) by (rewrite (row_sums_length n m); auto).
    rewrite !(row_sums_entry n m) by auto.
    rewrite (total_ext m (fun j => entry (weighted v' tu) i j) (fun j => entry (weighted v tu) i j + (a i * entry tu i j + b j * entry tu i j))).
    2:{ intros j J. rewrite !(weighted_entry n m) by auto. rewrite E by auto. ring. }
    rewrite !total_plus, total_scal, H by exact I. pose proof (row_weight_pos n m tu M P i I) as Q.
    change (fun j : nat => entry tu i j) with (entry tu i) in *. change (fun j : nat => entry (weighted v tu) i j) with (entry (weighted v tu) i). field. lra. }
  set (v1 := sub_rows v c). set (v1' := sub_rows v' c').
  assert (V1 : is_table n m v1) by (apply sub_rows_table; auto). assert (V1' : is_table n m v1') by (apply sub_rows_table; auto).
  pose proof (weighted_table _ _ _ _ V1 U) as W1. pose proof (weighted_table _ _ _ _ V1' U) as W1'.
  assert (E1 : forall i j, (i < n)%nat -> (j < m)%nat -> entry v1' i j = entry v1 i j + (b j - B)).
  { intros i j I J. unfold v1, v1'. rewrite !(sub_rows_entry n m) by auto. rewrite E, EC by auto. ring. }
  cbv zeta.
  set (d := map2 Rdiv (col_sums (weighted v1 tu)) (col_sums tu)). set (d' := map2 Rdiv (col_sums (weighted v1' tu)) (col_sums tu)).
  assert (Ld : length d = m) by (unfold d; rewrite map2_length_eq; rewrite !(col_sums_length n m); auto).
  assert (Ld' : length d' = m) by (unfold d'; rewrite map2_length_eq; rewrite !(col_sums_length n m); auto).
  assert (ED : forall j, (j < m)%nat -> nth j d' 0 = nth j d 0 + (b j - B)).
  { intros j J. unfold d, d'. rewrite !(nth_map2_lt _ _ _ _ 0 0) by (rewrite (col_sums_length n m); auto).
    rewrite !(col_sums_entry n m) by auto.
    rewrite (total_ext n (fun i => entry (weighted v1' tu) i j) (fun i => entry (weighted v1 tu) i j + (b j - B) * entry tu i j)).
    2:{ intros i I. rewrite !(weighted_entry n m) by auto. rewrite E1 by auto. ring. }
    rewrite total_plus, total_scal. pose proof (col_weight_pos n m tu N P j J). field. lra. }
  apply (table_ext n m); [apply sub_cols_table; auto|apply sub_cols_table; auto|].
  intros i j I J. rewrite !(sub_cols_entry n m) by auto. rewrite E1, ED by auto. ring.
Qed.

Lemma effects_ignored u values values' a b : per_bin n m u -> positive_bins n m u -> per_bin n m values -> per_bin n m values' ->
  with_effects n m a b values values' ->
  (forall j, (j < m)%nat -> b j = 0) \/ independent_bins n m u ->
  neutralized_values (two_columns n m) u values' = neutralized_values (two_columns n m) u values.
Proof.
  intros U PU V V' A C. destruct (values_table u values U V) as (tv & tu & Tv & Tu & Hv & Hu & E).
  destruct (values_table u values' U V') as (tv' & tu' & Tv' & Tu' & Hv' & Hu' & E').
  assert (tu' = tu) as -> by (apply (table_ext n m); auto; intros i j Hi Hj; rewrite Hu, Hu' by assumption; reflexivity).
  rewrite E, E'. unfold neutralize_one_dim_influence. rewrite !(loop_unfold tu).
  replace (Rltb (1 / 100) 100) with true by (symmetry; apply Rltb_iff; lra). cbn [andb Nat.ltb Nat.leb].
  assert (P : positive_table n m tu) by (intros i j Hi Hj; rewrite Hu by assumption; apply PU; assumption).
  assert (B : exists B, forall i, (i < n)%nat -> total m (fun j => b j * entry tu i j) = B * total m (fun j => entry tu i j)).
  { destruct C as [Z|(p & q & I)].
    - exists 0. intros i Hi. rewrite (total_ext m _ (fun j => 0 * entry tu i j)) by (intros j Hj; rewrite Z by exact Hj; reflexivity).
      apply total_scal.
    - exists (total m (fun j => b j * q j) / total m q). intros i Hi.
      assert (F : forall j, (j < m)%nat -> entry tu i j = p i * q j) by (intros j Hj; rewrite Hu, I by assumption; reflexivity).
      rewrite (total_ext m (fun j => b j * entry tu i j) (fun j => p i * (b j * q j))) by (intros j Hj; rewrite F by exact Hj; ring).
      rewrite (total_ext m (fun j => entry tu i j) (fun j => p i * q j)) by (intros j Hj; rewrite F by exact Hj; ring).
      rewrite !total_scal. change (total m (fun j : nat => q j)) with (total m q). field.
      pose proof (row_weight_pos n m tu M P i Hi) as Q.
      rewrite (total_ext m (fun j => entry tu i j) (fun j => p i * q j)) in Q by (intros j Hj; rewrite F by exact Hj; ring).
      rewrite total_scal in Q. intro Z0. rewrite Z0 in Q. lra. }
  destruct B as (B & HB).
  rewrite (round_same tu tv tv' a b B); auto.
  intros i j Hi Hj. rewrite Hv', Hv by assumption. apply A; assumption.
Qed.
End Two.

(** Three columns, of which the third has at least two bins. *)
Lemma three_columns n m k u values : shape [n; m; k] -> (2 <= k)%Z -> Z.of_nat (length values) = size [n; m; k] ->
  neutralized_values (arange_multi [n; m; k]) u values = None.
Proof.
  intros S K L. unfold neutralized_values. rewrite !group_bins by (try exact S; cbn; lia). cbn [nth].
  assert (n > 0 /\ m > 0)%Z as (P1 & P2).
  { unfold shape in S. pose proof (Forall_inv S) as A. pose proof (Forall_inv (Forall_inv_tail S)) as B. cbv beta in A, B. lia. }
  replace (reshape (Z.to_nat n) (Z.to_nat m) values) with (@None table).
  2:{ unfold reshape. destruct (Nat.eqb_spec (length values) (Z.to_nat n * Z.to_nat m)) as [E|]; [|reflexivity].
      exfalso. cbn [size] in L. assert (Z.of_nat (length values) = n * m)%Z by nia. nia. }
  destruct (arange_multi [n; m; k]); [reflexivity|]. destruct (length l <? 2)%nat; reflexivity.
Qed.
Lemma one_column n u values : (0 < n)%Z -> neutralized_values (arange_multi [n]) u values = None.
Proof.
  intros P. unfold neutralized_values.
  assert (S : shape [n]) by (constructor; [lia|constructor]).
  pose proof (arange_multi_rows [n] S) as E. destruct (arange_multi [n]) as [|c l]; [reflexivity|].
  destruct (Z.to_nat (size [n])) as [|k]; [discriminate|]. cbn [seq map] in E. injection E as -> _. reflexivity.
Qed.

(** ** Regularisation to a prior expectation on top of a smoother *)
Lemma meta_values prior threshold s centres weights u values k uk : nth_error u k = Some uk -> 0 < uk -> 0 <= threshold ->
  match s centres weights u values k with
  | Some v =>
      (Rabs (v - prior k) <= threshold * uk -> prior_expectation_meta prior threshold s centres weights u values k = Some (prior k)) /\
      (threshold * uk < Rabs (v - prior k) -> exists r, prior_expectation_meta prior threshold s centres weights u values k = Some r /\
         (r - prior k) ^ 2 = (v - prior k) ^ 2 - (threshold * uk) ^ 2 /\
         (prior k < v -> prior k < r <= v) /\ (v < prior k -> v <= r < prior k))
  | None => prior_expectation_meta prior threshold s centres weights u values k = Some (prior k)
  end.
Proof.
  intros U P T. unfold prior_expectation_meta. rewrite U. destruct (s centres weights u values k) as [v|]; [|reflexivity].
  split; intros H; [apply prior_insignificant; assumption|].
  destruct (prior_significant v uk (prior k) threshold P T H) as (r & A & B & C & D & _). exists r. auto.
Qed.
