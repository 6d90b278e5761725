(** Finite sums over an index range. *)
From Coq Require Import List Bool Reals Lia Lra.
From Verif.Model Require Import Train Regularize.
From Verif.Spec Require Import RegularizeSpec.
From Verif.Proofs Require Import TrainFacts ImportanceFacts.
Import ListNotations.
Local Open Scope R_scope.

Lemma total_ext n g h : (forall i, (i < n)%nat -> g i = h i) -> total n g = total n h.
Proof. intros H. apply sumR_ext. intros i I. apply in_seq in I. apply H. lia. Qed.
Lemma total_plus n g h : total n (fun i => g i + h i) = total n g + total n h.
Proof. apply sumR_plus. Qed.
Lemma total_zero n : total n (fun _ => 0) = 0.
Proof. apply sumR_zero. Qed.
Lemma total_scal n g c : total n (fun i => c * g i) = c * total n g.
Proof. unfold total. induction (seq 0 n) as [|a l IH]; cbn [map sumR]; [ring|]. rewrite IH. ring. Qed.
Lemma total_scal_r n g c : total n (fun i => g i * c) = total n g * c.
Proof. rewrite (total_ext n _ (fun i => c * g i)) by (intros; ring). rewrite total_scal. ring. Qed.
Lemma total_minus n g h : total n (fun i => g i - h i) = total n g - total n h.
Proof.
  rewrite (total_ext n _ (fun i => g i + (-1) * h i)) by (intros; ring). rewrite total_plus, total_scal. ring.
Qed.
Lemma total_nonneg n g : (forall i, (i < n)%nat -> 0 <= g i) -> 0 <= total n g.
Proof. intros H. apply sumR_nonneg. intros i I. apply in_seq in I. apply H. lia. Qed.
Lemma total_S n g : total (S n) g = total n g + g n.
Proof. unfold total. rewrite seq_S, map_app, sumR_app. cbn. ring. Qed.
Lemma total_shift n g : total (S n) g = g 0%nat + total n (fun i => g (S i)).
Proof. unfold total. cbn [seq map sumR]. rewrite <- seq_shift, map_map. reflexivity. Qed.
Lemma total_le n g h : (forall i, (i < n)%nat -> g i <= h i) -> total n g <= total n h.
Proof.
  intros H. enough (0 <= total n h - total n g) by lra. rewrite <- total_minus. apply total_nonneg.
  intros i I. specialize (H i I). lra.
Qed.
Lemma total_term n g k : (forall i, (i < n)%nat -> 0 <= g i) -> (k < n)%nat -> g k <= total n g.
Proof.
  induction n as [|n IH]; intros H K; [lia|]. rewrite total_S.
  pose proof (total_nonneg n g (fun i I => H i ltac:(lia))). destruct (Nat.eq_dec k n) as [->|N].
  - lra.
  - pose proof (IH (fun i I => H i ltac:(lia)) ltac:(lia)). pose proof (H n ltac:(lia)). lra.
Qed.
Lemma total_pos n g k : (forall i, (i < n)%nat -> 0 <= g i) -> (k < n)%nat -> 0 < g k -> 0 < total n g.
Proof. intros H K P. pose proof (total_term n g k H K). lra. Qed.
Lemma total_zero_all n g : (forall i, (i < n)%nat -> 0 <= g i) -> total n g = 0 -> forall i, (i < n)%nat -> g i = 0.
Proof. intros H Z i I. pose proof (total_term n g i H I). pose proof (H i I). lra. Qed.
Lemma total_all_pos n g : (0 < n)%nat -> (forall i, (i < n)%nat -> 0 < g i) -> 0 < total n g.
Proof. intros N H. apply (total_pos n g 0); [intros i I; left; auto|lia|apply H; lia]. Qed.
Lemma total_swap n m (g : nat -> nat -> R) :
  total n (fun i => total m (fun j => g i j)) = total m (fun j => total n (fun i => g i j)).
Proof.
  induction n as [|n IH].
  - transitivity 0; [reflexivity|]. symmetry. transitivity (total m (fun _ => 0)); [|apply total_zero].
    apply total_ext. reflexivity.
  - rewrite total_S, IH. rewrite <- total_plus. apply total_ext. intros j _. rewrite total_S. reflexivity.
Qed.
Lemma total_abs n g : Rabs (total n g) <= total n (fun i => Rabs (g i)).
Proof.
  induction n as [|n IH]; [cbn; rewrite Rabs_R0; lra|]. rewrite !total_S.
  pose proof (Rabs_triang (total n g) (g n)). lra.
Qed.

Lemma sumR_total l : sumR l = total (length l) (fun i => nth i l 0).
Proof.
  induction l as [|x l IH]; [reflexivity|]. cbn [length]. rewrite total_shift. cbn [nth sumR]. rewrite IH. reflexivity.
Qed.
Lemma nth_map_lt {A B} (f : A -> B) l i d e : (i < length l)%nat -> nth i (map f l) e = f (nth i l d).
Proof. intros I. rewrite (nth_indep _ e (f d)) by (rewrite map_length; exact I). apply map_nth. Qed.
Lemma nth_map2_lt {A B C} (f : A -> B -> C) a : forall b i da db dc, (i < length a)%nat -> (i < length b)%nat ->
  nth i (map2 f a b) dc = f (nth i a da) (nth i b db).
Proof.
  induction a as [|x a IH]; intros [|y b] i da db dc I J; cbn in *; try lia. destruct i; [reflexivity|]. apply IH; lia.
Qed.
Lemma map2_length_eq {A B C} (f : A -> B -> C) a b : length a = length b -> length (map2 f a b) = length a.
Proof. revert b. induction a as [|x a IH]; intros [|y b] H; cbn in *; try discriminate; auto. Qed.
Lemma map_total {A} (f : A -> R) l d : sumR (map f l) = total (length l) (fun i => f (nth i l d)).
Proof.
  rewrite sumR_total, map_length. apply total_ext. intros i I. apply nth_map_lt. exact I.
Qed.
Lemma map2_total {A B} (f : A -> B -> R) a b da db : length a = length b ->
  sumR (map2 f a b) = total (length a) (fun i => f (nth i a da) (nth i b db)).
Proof.
  intros E. rewrite sumR_total, map2_length_eq by exact E. apply total_ext. intros i I. apply nth_map2_lt; lia.
Qed.

(** ** Segments *)
Lemma between_left a b : between a b a.
Proof. unfold between. split; [apply Rmin_l|apply Rmax_l]. Qed.
Lemma between_mix a b v t : 0 <= t <= 1 -> v = a + t * (b - a) -> between a b v.
Proof.
  intros T ->. unfold between, Rmin, Rmax. destruct (Rle_dec a b); split; nra.
Qed.
Lemma div_nonneg a b : 0 <= a -> 0 < b -> 0 <= a / b.
Proof. intros A B. pose proof (Rinv_0_lt_compat b B). unfold Rdiv. nra. Qed.
Lemma square_pos a : a <> 0 -> 0 < a ^ 2.
Proof. intros A. pose proof (Rsqr_pos_lt a A). unfold Rsqr in *. lra. Qed.
