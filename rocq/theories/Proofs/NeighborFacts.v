(** Regularisation to the mean of the neighbouring bins. *)
From Coq Require Import List Bool Reals Lia Lra.
From Verif.Model Require Import Train Regularize.
From Verif.Spec Require Import RegularizeSpec.
From Verif.Proofs Require Import TrainFacts TrainExamples LinkFacts ImportanceFacts TotalFacts.
Import ListNotations.
Local Open Scope R_scope.

Definition nb (i j : nat) : bool := Nat.leb j (i + 1) && Nat.leb i (j + 1).
Lemma nb_iff i j : nb i j = true <-> neighbor i j.
Proof. unfold nb, neighbor. rewrite andb_true_iff, !Nat.leb_le. reflexivity. Qed.
Lemma neighbor_sum_ext n i g h : (forall j, (j < n)%nat -> neighbor i j -> g j = h j) -> neighbor_sum n i g = neighbor_sum n i h.
Proof.
  intros H. apply total_ext. intros j J. fold (nb i j). destruct (nb i j) eqn:E; [|reflexivity]. apply H; [exact J|]. apply nb_iff, E.
Qed.
Lemma neighbor_sum_nonneg n i g : (forall j, (j < n)%nat -> neighbor i j -> 0 <= g j) -> 0 <= neighbor_sum n i g.
Proof.
  intros H. apply total_nonneg. intros j J. fold (nb i j). destruct (nb i j) eqn:E; [|lra]. apply H; [exact J|]. apply nb_iff, E.
Qed.
Lemma neighbor_sum_pos n i g j : (forall j, (j < n)%nat -> neighbor i j -> 0 <= g j) -> (j < n)%nat -> neighbor i j -> 0 < g j ->
  0 < neighbor_sum n i g.
Proof.
  intros H J N P. apply (total_pos _ _ j); [|exact J|].
  - intros k K. fold (nb i k). destruct (nb i k) eqn:E; [|lra]. apply H; [exact K|]. apply nb_iff, E.
  - fold (nb i j). rewrite (proj2 (nb_iff i j) N). exact P.
Qed.
Lemma neighbor_sum_zero n i g : (forall j, (j < n)%nat -> neighbor i j -> 0 <= g j) -> neighbor_sum n i g = 0 ->
  forall j, (j < n)%nat -> neighbor i j -> g j = 0.
Proof.
  intros H Z j J N.
  assert (A : (fun k => if Nat.leb k (i + 1) && Nat.leb i (k + 1) then g k else 0) j = 0).
  { refine (total_zero_all n (fun k => if Nat.leb k (i + 1) && Nat.leb i (k + 1) then g k else 0) _ Z j J).
    intros k K. fold (nb i k). destruct (nb i k) eqn:E; [|lra]. apply H; [exact K|]. apply nb_iff, E. }
  cbn beta in A. fold (nb i j) in A. rewrite (proj2 (nb_iff i j) N) in A. exact A.
Qed.
Lemma neighbor_sum_scal n i g c : neighbor_sum n i (fun j => g j * c) = neighbor_sum n i g * c.
Proof.
  unfold neighbor_sum. rewrite <- total_scal_r. apply total_ext. intros j _. destruct (_ && _); ring.
Qed.
Lemma neighbor_sum_le n i g h : (forall j, (j < n)%nat -> neighbor i j -> g j <= h j) -> neighbor_sum n i g <= neighbor_sum n i h.
Proof.
  intros H. apply total_le. intros j J. fold (nb i j). destruct (nb i j) eqn:E; [|lra]. apply H; [exact J|]. apply nb_iff, E.
Qed.
Lemma convolve_neighbors v i n : length v = n -> convolve_same 3 v i = neighbor_sum n i (fun j => nth j v 0).
Proof.
  intros <-. unfold convolve_same, neighbor_sum, total. f_equal. apply map_ext. intros j.
  change (3 / 2)%nat with 1%nat.
  replace (Nat.ltb (j + 1) (i + 3)) with (Nat.leb j (i + 1)).
  - rewrite andb_comm. reflexivity.
  - destruct (Nat.leb_spec j (i + 1)), (Nat.ltb_spec (j + 1) (i + 3)); auto; lia.
Qed.

Lemma bin_weight_nonneg u j : 0 <= bin_weight u j.
Proof.
  unfold bin_weight. destruct (Rltb 0 (nth j u 0)) eqn:E; [|lra]. apply Rltb_iff in E.
  apply div_nonneg; [lra|apply square_pos; lra].
Qed.
Lemma bin_weight_pos u j : 0 < nth j u 0 -> 0 < bin_weight u j.
Proof.
  intros P. unfold bin_weight. replace (Rltb 0 (nth j u 0)) with true by (symmetry; apply Rltb_iff; exact P).
  apply Rdiv_lt_0_compat; [lra|apply square_pos; lra].
Qed.
Lemma bin_weight_zero u j : ~ 0 < nth j u 0 -> bin_weight u j = 0.
Proof.
  intros P. unfold bin_weight. replace (Rltb 0 (nth j u 0)) with false by (symmetry; apply Rltb_false; lra). reflexivity.
Qed.

(** The entry [i] of the result in terms of neighbour sums. *)
Definition neighbor_value (x u : list R) (i : nat) : option R :=
  let n := length x in
  let s := neighbor_sum n i (bin_weight u) in
  if Reqb s 0 then None
  else
    let m := window_mean x u i in
    let d := neighbor_sum n i (fun j => bin_weight u j * (nth j x 0 - m) ^ 2) in
    if Reqb d 0 then None
    else Some ((bin_weight u i * nth i x 0 + s / d * m) / (bin_weight u i + s / d)).

Lemma neighbors_form x u : length x = length u -> (3 <= length x)%nat ->
  regularize_neighbors 3 x u = Some (map (neighbor_value x u) (seq 0 (length x))).
Proof.
  intros L N. unfold regularize_neighbors. rewrite (proj2 (Nat.eqb_eq _ _) L). cbn [negb].
  replace (Nat.ltb (length x) 3) with false by (symmetry; apply Nat.ltb_ge; exact N).
  set (wx := map (fun v => if Rltb 0 v then 1 / (v * v) else 0) u).
  assert (Lw : length wx = length x) by (unfold wx; rewrite map_length; lia).
  assert (W : forall j, (j < length x)%nat -> nth j wx 0 = bin_weight u j).
  { intros j J. unfold wx. rewrite (nth_map_lt _ _ j 0) by lia. unfold bin_weight.
    replace (nth j u 0 ^ 2) with (nth j u 0 * nth j u 0) by ring. reflexivity. }
  f_equal. apply map_ext_in. intros i I. apply in_seq in I. unfold neighbor_value. cbn zeta.
  assert (S : convolve_same 3 wx i = neighbor_sum (length x) i (bin_weight u)).
  { rewrite (convolve_neighbors _ _ _ Lw). apply neighbor_sum_ext. intros j J _. apply W, J. }
  rewrite S. destruct (Reqb _ 0); [reflexivity|].
  assert (M : convolve_same 3 (map2 Rmult wx x) i / neighbor_sum (length x) i (bin_weight u) = window_mean x u i).
  { unfold window_mean. f_equal. rewrite (convolve_neighbors _ _ (length x)) by (rewrite map2_length_eq; auto).
    apply neighbor_sum_ext. intros j J _. rewrite (nth_map2_lt _ _ _ _ 0 0) by lia. rewrite W by exact J. reflexivity. }
  rewrite M. set (m := window_mean x u i).
  assert (D : convolve_same 3 (map2 (fun w v => w * (v - m) ^ 2) wx x) i =
              neighbor_sum (length x) i (fun j => bin_weight u j * (nth j x 0 - m) ^ 2)).
  { rewrite (convolve_neighbors _ _ (length x)) by (rewrite map2_length_eq; auto).
    apply neighbor_sum_ext. intros j J _. rewrite (nth_map2_lt _ _ _ _ 0 0) by lia. rewrite W by exact J. reflexivity. }
  rewrite D. destruct (Reqb _ 0); [reflexivity|]. rewrite (W i ltac:(lia)). reflexivity.
Qed.

Lemma window_mean_range x u i lo hi : 0 < neighbor_sum (length x) i (bin_weight u) ->
  (forall j, (j < length x)%nat -> neighbor i j -> 0 < nth j u 0 -> lo <= nth j x 0 <= hi) ->
  lo <= window_mean x u i <= hi.
Proof.
  intros S H. unfold window_mean. set (s := neighbor_sum (length x) i (bin_weight u)) in *.
  assert (A : s * lo <= neighbor_sum (length x) i (fun j => bin_weight u j * nth j x 0) <= s * hi).
  { unfold s. rewrite <- !neighbor_sum_scal. split; apply neighbor_sum_le; intros j J Nj;
      (destruct (Rlt_le_dec 0 (nth j u 0)) as [P|P];
       [pose proof (bin_weight_pos u j P); destruct (H j J Nj P); nra
       |rewrite bin_weight_zero by lra; lra]). }
  split; apply (Rmult_le_reg_r s); try exact S; unfold Rdiv; rewrite ?Rmult_assoc, Rinv_l; lra.
Qed.

(** ** C56 *)
Lemma neighbors_shrinkage x u i : length x = length u -> (3 <= length x)%nat -> (i < length x)%nat ->
  (exists j k, (j < length x)%nat /\ (k < length x)%nat /\ neighbor i j /\ neighbor i k /\
     0 < nth j u 0 /\ 0 < nth k u 0 /\ nth j x 0 <> nth k x 0) ->
  exists r v, regularize_neighbors 3 x u = Some r /\ length r = length x /\ nth_error r i = Some (Some v) /\
    between (nth i x 0) (window_mean x u i) v /\ (~ 0 < nth i u 0 -> v = window_mean x u i) /\
    (forall lo hi, (forall j, (j < length x)%nat -> neighbor i j -> 0 < nth j u 0 -> lo <= nth j x 0 <= hi) -> lo <= v <= hi).
Proof.
  intros L N I (j & k & J & K & Nj & Nk & Pj & Pk & NE).
  assert (S : 0 < neighbor_sum (length x) i (bin_weight u)).
  { apply (neighbor_sum_pos _ _ _ j); auto using bin_weight_nonneg, bin_weight_pos. }
  set (m := window_mean x u i).
  assert (D : 0 < neighbor_sum (length x) i (fun j => bin_weight u j * (nth j x 0 - m) ^ 2)).
  { assert (Q : exists h, (h < length x)%nat /\ neighbor i h /\ 0 < nth h u 0 /\ nth h x 0 <> m).
    { destruct (Req_EM_T (nth j x 0) m) as [E|E]; [exists k|exists j]; auto. repeat split; auto; try apply Nk. congruence. }
    destruct Q as (h & H & Nh & Ph & Eh). apply (neighbor_sum_pos _ _ _ h); auto.
    - intros h' _ _. apply Rmult_le_pos; [apply bin_weight_nonneg|apply pow2_ge_0].
    - apply Rmult_lt_0_compat; [apply bin_weight_pos; auto|apply square_pos; lra]. }
  rewrite (neighbors_form x u L N).
  set (s := neighbor_sum (length x) i (bin_weight u)) in *.
  set (d := neighbor_sum (length x) i (fun j => bin_weight u j * (nth j x 0 - m) ^ 2)) in *.
  assert (V : neighbor_value x u i = Some ((bin_weight u i * nth i x 0 + s / d * m) / (bin_weight u i + s / d))).
  { unfold neighbor_value. cbn zeta. fold s. replace (Reqb s 0) with false by (symmetry; apply Reqb_false_iff; lra).
    fold m. fold d. replace (Reqb d 0) with false by (symmetry; apply Reqb_false_iff; lra). reflexivity. }
  assert (Q : 0 < s / d) by (apply Rdiv_lt_0_compat; lra). set (q := s / d) in *.
  pose proof (bin_weight_nonneg u i) as B. set (w := bin_weight u i) in *.
  exists (map (neighbor_value x u) (seq 0 (length x))), ((w * nth i x 0 + q * m) / (w + q)).
  split; [reflexivity|]. split; [rewrite map_length, seq_length; reflexivity|]. split; [|split; [|split]].
  - rewrite nth_error_map, (nth_error_nth' _ 0%nat) by (rewrite seq_length; exact I). cbn [option_map].
    rewrite seq_nth by exact I. cbn [plus]. rewrite V. reflexivity.
  - apply (between_mix _ _ _ (q / (w + q))).
    + split; [apply div_nonneg; lra|]. apply (Rmult_le_reg_r (w + q)); [lra|]. unfold Rdiv. rewrite Rmult_assoc, Rinv_l by lra. lra.
    + field. lra.
  - intros P. unfold w. rewrite bin_weight_zero by exact P. fold m. field. lra.
  - intros lo hi H. pose proof (window_mean_range x u i lo hi S H) as M. fold m in M.
    destruct (Rlt_le_dec 0 (nth i u 0)) as [P|P].
    + assert (X : lo <= nth i x 0 <= hi) by (apply H; auto; unfold neighbor; lia).
      split; apply (Rmult_le_reg_r (w + q)); try lra; unfold Rdiv; rewrite ?Rmult_assoc, Rinv_l by lra; nra.
    + assert (w = 0) as -> by (apply bin_weight_zero; lra).
      replace ((0 * nth i x 0 + q * m) / (0 + q)) with m by (field; lra). exact M.
Qed.
Lemma neighbors_undefined x u i : length x = length u -> (3 <= length x)%nat -> (i < length x)%nat ->
  (forall j k, (j < length x)%nat -> (k < length x)%nat -> neighbor i j -> neighbor i k ->
     0 < nth j u 0 -> 0 < nth k u 0 -> nth j x 0 = nth k x 0) ->
  exists r, regularize_neighbors 3 x u = Some r /\ nth_error r i = Some None.
Proof.
  intros L N I H. rewrite (neighbors_form x u L N). eexists. split; [reflexivity|].
  rewrite nth_error_map, (nth_error_nth' _ 0%nat) by (rewrite seq_length; exact I). cbn [option_map].
  rewrite seq_nth by exact I. cbn [plus]. f_equal. unfold neighbor_value. cbn zeta.
  set (s := neighbor_sum (length x) i (bin_weight u)). destruct (Reqb s 0) eqn:E; [reflexivity|].
  apply Reqb_false_iff in E.
  assert (Sp : 0 < s). { assert (0 <= s) by (apply neighbor_sum_nonneg; auto using bin_weight_nonneg). lra. }
  replace (Reqb _ 0) with true; [reflexivity|]. symmetry. apply Reqb_iff.
  transitivity (neighbor_sum (length x) i (fun _ => 0 * 0)).
  - apply neighbor_sum_ext. intros j J Nj. destruct (Rlt_le_dec 0 (nth j u 0)) as [P|P].
    + replace (nth j x 0) with (window_mean x u i); [ring|].
      assert (nth j x 0 <= window_mean x u i <= nth j x 0).
      { apply window_mean_range; [exact Sp|]. intros k K Nk Pk. rewrite (H k j); auto. lra. }
      lra.
    + rewrite bin_weight_zero by lra. ring.
  - rewrite neighbor_sum_scal. ring.
Qed.
Lemma neighbors_short x u w : (length x < 3)%nat ->
  regularize_neighbors w x u = regularize_to_error_weighted_mean x u None.
Proof.
  intros N. unfold regularize_neighbors, regularize_to_error_weighted_mean.
  destruct (Nat.eqb (length x) (length u)); cbn [negb]; [|reflexivity].
  replace (Nat.ltb (length x) 3) with true by (symmetry; apply Nat.ltb_lt; exact N). reflexivity.
Qed.
