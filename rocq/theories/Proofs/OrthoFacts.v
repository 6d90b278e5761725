(** Orthogonal polynomials: orthonormality by induction over the recurrence, and the
    least-squares property of the fit. *)
From Coq Require Import List Bool Reals Lia Lra.
From Verif.Model Require Import Num Train Orthofit.
From Verif.Spec Require Import OrthoSpec.
From Verif.Proofs Require Import TrainFacts LinkFacts.
Import ListNotations.
Local Open Scope R_scope.

(** ** Polynomials as functions: [is_poly n a f], degree [n] with leading coefficient [a]. *)
Fixpoint is_poly (n : nat) (a : R) (f : R -> R) : Prop :=
  match n with
  | O => forall x, f x = a
  | S m => exists c h, is_poly m a h /\ forall x, f x = c + x * h x
  end.

Lemma is_poly_ext n a f g : (forall x, f x = g x) -> is_poly n a f -> is_poly n a g.
Proof.
  destruct n; cbn; intros E H.
  - intro x. now rewrite <- E.
  - destruct H as (c & h & H1 & H2). exists c, h. split; [exact H1|]. intro x. now rewrite <- E.
Qed.
Lemma is_poly_add n : forall a b f g, is_poly n a f -> is_poly n b g -> is_poly n (a + b) (fun x => f x + g x).
Proof.
  induction n as [|n IH]; cbn; intros a b f g H K.
  - intro x. now rewrite H, K.
  - destruct H as (c & h & H1 & H2), K as (d & k & K1 & K2). exists (c + d), (fun x => h x + k x).
    split; [now apply IH|]. intro x. rewrite H2, K2. lra.
Qed.
Lemma is_poly_scale n : forall a f s, is_poly n a f -> is_poly n (s * a) (fun x => s * f x).
Proof.
  induction n as [|n IH]; cbn; intros a f s H.
  - intro x. now rewrite H.
  - destruct H as (c & h & H1 & H2). exists (s * c), (fun x => s * h x).
    split; [now apply IH|]. intro x. rewrite H2. lra.
Qed.
Lemma is_poly_x n a f : is_poly n a f -> is_poly (S n) a (fun x => x * f x).
Proof. intro H. exists 0, f. split; [exact H|]. intro x. lra. Qed.
Lemma is_poly_lift n : forall a f, is_poly n a f -> is_poly (S n) 0 f.
Proof.
  induction n as [|n IH]; intros a f H.
  - exists a, (fun _ => 0). cbn in *. split; [reflexivity|]. intro x. rewrite H. lra.
  - destruct H as (c & h & H1 & H2). exists c, h. split; [|exact H2]. now apply (IH a).
Qed.
Lemma is_poly_zero n : is_poly n 0 (fun _ => 0).
Proof. induction n; cbn; [reflexivity|]. exists 0, (fun _ => 0). split; [exact IHn|]. intro; lra. Qed.

Lemma is_poly_root n : forall a f r, is_poly (S n) a f ->
  exists g, is_poly n a g /\ forall x, f x - f r = (x - r) * g x.
Proof.
  induction n as [|n IH]; intros a f r (c & h & H1 & H2).
  - exists h. split; [exact H1|]. intro x. rewrite !H2. cbn in H1. rewrite !H1. lra.
  - destruct (IH a h r H1) as (g & G1 & G2). exists (fun x => h x + r * g x). split.
    + replace a with (a + r * 0) by lra. apply is_poly_add; [exact H1|].
      apply (is_poly_scale (S n) 0). now apply (is_poly_lift n a).
    + intro x. rewrite !H2. specialize (G2 x). replace (c + x * h x - (c + r * h r)) with ((x - r) * h x + r * (h x - h r)) by ring.
      rewrite G2. ring.
Qed.

Lemma is_poly_roots n : forall a f xs, is_poly n a f -> NoDup xs -> (n < length xs)%nat ->
  (forall x, In x xs -> f x = 0) -> a = 0.
Proof.
  induction n as [|n IH]; intros a f xs H N L Z.
  - destruct xs as [|x xs]; [cbn in L; lia|]. rewrite <- (H x). apply Z. now left.
  - destruct xs as [|r xs]; [cbn in L; lia|]. inversion N as [|? ? N1 N2]; subst.
    destruct (is_poly_root n a f r H) as (g & G1 & G2).
    apply (IH a g xs G1 N2); [cbn in L; lia|]. intros x I.
    specialize (G2 x). rewrite (Z x (or_intror I)), (Z r (or_introl eq_refl)) in G2.
    assert (x <> r) by (intros ->; contradiction).
    assert (E : (x - r) * g x = 0) by lra. apply Rmult_integral in E. destruct E; [lra|assumption].
Qed.

(** Coefficient lists. *)
Lemma poly_is_poly m : forall c, length c = S m -> exists a, is_poly m a (poly c).
Proof.
  induction m as [|m IH]; intros [|a c] L; try discriminate.
  - destruct c; [|discriminate]. exists a. cbn. intro; lra.
  - destruct (IH c) as (b & H); [now injection L|]. exists b, a, (poly c). split; [exact H|]. reflexivity.
Qed.
Lemma is_poly_coefficients m : forall a f, is_poly m a f -> exists c, length c = S m /\ forall x, f x = poly c x.
Proof.
  induction m as [|m IH]; intros a f H.
  - exists [a]. split; [reflexivity|]. intro x. rewrite H. cbn. lra.
  - destruct H as (c0 & h & H1 & H2). destruct (IH a h H1) as (c & L & E). exists (c0 :: c).
    split; [cbn; now rewrite L|]. intro x. rewrite H2, E. reflexivity.
Qed.
Lemma is_poly_drop m : forall f, is_poly (S m) 0 f -> exists a, is_poly m a f.
Proof.
  induction m as [|m IH]; intros f (c & h & H1 & H2).
  - exists c. intro x. rewrite H2. cbn in H1. rewrite H1. lra.
  - destruct (IH h H1) as (a & H). exists a, c, h. auto.
Qed.

(** ** Sums *)
Lemma sumR_map_add {A} (f g : A -> R) l : sumR (map (fun x => f x + g x) l) = sumR (map f l) + sumR (map g l).
Proof. induction l; cbn; [lra|rewrite IHl; lra]. Qed.
Lemma sumR_map_scale {A} (f : A -> R) s l : sumR (map (fun x => s * f x) l) = s * sumR (map f l).
Proof. induction l; cbn; [lra|rewrite IHl; lra]. Qed.
Lemma sumR_map_zero {A} (l : list A) : sumR (map (fun _ => 0) l) = 0.
Proof. induction l; cbn; [lra|rewrite IHl; lra]. Qed.
Lemma sumR_swap {A B} (f : A -> B -> R) l m :
  sumR (map (fun x => sumR (map (f x) m)) l) = sumR (map (fun y => sumR (map (fun x => f x y) l)) m).
Proof.
  induction l as [|x l IH]; cbn.
  - now rewrite sumR_map_zero.
  - rewrite IH, <- sumR_map_add. reflexivity.
Qed.
Lemma sumR_nonneg {A} (f : A -> R) l : (forall x, In x l -> 0 <= f x) -> 0 <= sumR (map f l).
Proof.
  induction l as [|x l IH]; cbn; intro H; [lra|].
  pose proof (H x (or_introl eq_refl)). assert (0 <= sumR (map f l)) by (apply IH; intros; apply H; now right). lra.
Qed.
Lemma sumR_zero_all {A} (f : A -> R) l : (forall x, In x l -> 0 <= f x) -> sumR (map f l) <= 0 ->
  forall x, In x l -> f x = 0.
Proof.
  induction l as [|y l IH]; cbn; intros H Z x I; [destruct I|].
  pose proof (H y (or_introl eq_refl)). assert (0 <= sumR (map f l)) by (apply sumR_nonneg; intros; apply H; now right).
  destruct I as [<-|I]; [lra|]. apply IH; auto; lra.
Qed.
Lemma map2_map_r {A B C} (f : A -> B -> C) (g : A -> B) l : map2 f l (map g l) = map (fun x => f x (g x)) l.
Proof. induction l; cbn; [reflexivity|now rewrite IHl]. Qed.
Lemma combine_map {A B C} (f : A -> B) (g : A -> C) l : combine (map f l) (map g l) = map (fun x => (f x, g x)) l.
Proof. induction l; cbn; [reflexivity|now rewrite IHl]. Qed.
Lemma sumR_map_ext {A} (f g : A -> R) l : (forall x, f x = g x) -> sumR (map f l) = sumR (map g l).
Proof. intro H. f_equal. now apply map_ext. Qed.
Lemma sumR_map_ext_in {A} (f g : A -> R) l : (forall x, In x l -> f x = g x) -> sumR (map f l) = sumR (map g l).
Proof. intro H. f_equal. now apply map_ext_in. Qed.

Section Ortho.
Variable pts : list point.

Definition ip (f g : R -> R) : R := sumR (map (fun p => p_w p * f (p_x p) * g (p_x p)) pts).
Definition ipy (f : R -> R) : R := sumR (map (fun p => p_w p * f (p_x p) * p_y p) pts).

Lemma ip_sym f g : ip f g = ip g f.
Proof. apply sumR_map_ext. intro; cbv beta; ring. Qed.
Lemma ip_add f g h : ip (fun x => f x + g x) h = ip f h + ip g h.
Proof. unfold ip. rewrite <- sumR_map_add. apply sumR_map_ext. intro; cbv beta; ring. Qed.
Lemma ip_scale s f h : ip (fun x => s * f x) h = s * ip f h.
Proof. unfold ip. rewrite <- sumR_map_scale. apply sumR_map_ext. intro; cbv beta; ring. Qed.
Lemma ip_x f g : ip (fun x => x * f x) g = ip f (fun x => x * g x).
Proof. apply sumR_map_ext. intro; cbv beta; ring. Qed.
Lemma ip_ext f g h : (forall x, f x = g x) -> ip f h = ip g h.
Proof. intro E. apply sumR_map_ext. intro. now rewrite E. Qed.
Lemma ip_zero h : ip (fun _ => 0) h = 0.
Proof. unfold ip. rewrite (sumR_map_ext _ (fun _ => 0)); [apply sumR_map_zero|]. intro; cbv beta; ring. Qed.

(** The recurrence on functions. *)
Definition raw_of (l o : R -> R) : R -> R :=
  fun x => (x - ip (fun x => x * l x) l) * l x - ip (fun x => x * o x) l * o x.
Fixpoint seq_of (k : nat) : (R -> R) * (R -> R) :=
  match k with
  | O => (fun _ => inv_sqrt (sumR (map p_w pts)), fun _ => 0)
  | S k => let (l, o) := seq_of k in
           (fun x => raw_of l o x * inv_sqrt (ip (raw_of l o) (raw_of l o)), l)
  end.
Definition P (k : nat) : R -> R := fst (seq_of k).
Definition Pm (k : nat) : R -> R := snd (seq_of k).
Definition A (k : nat) : R := ip (fun x => x * P k x) (P k).
Definition B (k : nat) : R := ip (fun x => x * Pm k x) (P k).
Definition W (k : nat) : R -> R := raw_of (P k) (Pm k).
Definition G (k : nat) : R := inv_sqrt (ip (W k) (W k)).
Definition D (k : nat) : R := ipy (P k).
Fixpoint SS (k : nat) : R :=
  match k with
  | O => sumR (map (fun p => p_w p * (p_y p - D 0 * P 0 (p_x p)) ^ 2) pts)
  | S k => Rmax 0 (SS k - D (S k) * D (S k))
  end.

Lemma P_S k x : P (S k) x = W k x * G k.
Proof. unfold W, G, W, P, Pm. cbn. destruct (seq_of k) as [l o]. reflexivity. Qed.
Lemma O_S k : Pm (S k) = P k.
Proof. unfold Pm, P. cbn. now destruct (seq_of k). Qed.
Lemma W_eq k x : W k x = (x - A k) * P k x - B k * Pm k x.
Proof. reflexivity. Qed.

(** ** The model computes the recurrence *)
Definition the_row (k : nat) : orow :=
  match k with
  | O => first_row pts
  | S k => {| o_alpha := A k; o_beta := B k; o_gamma := G k; o_delta := D (S k); o_sum := SS (S k) |}
  end.

Lemma first_row_eq : o_gamma (first_row pts) = P 0 0 /\ o_delta (first_row pts) = D 0 /\ o_sum (first_row pts) = SS 0.
Proof.
  assert (ED : sumR (map (fun p => p_w p * p_y p) pts) * inv_sqrt (sumR (map p_w pts)) = D 0).
  { unfold D, ipy, P. cbn. rewrite Rmult_comm, <- sumR_map_scale. apply sumR_map_ext. intro; cbv beta; ring. }
  cbn [first_row o_gamma o_delta o_sum]. split; [reflexivity|]. split; [exact ED|].
  rewrite ED. cbn [SS]. apply sumR_map_ext. intro p. unfold P. cbn [seq_of fst]. ring.
Qed.

Lemma next_row_eq k : next_row pts (map (fun p => P k (p_x p)) pts) (map (fun p => Pm k (p_x p)) pts) (SS k) =
  (the_row (S k), map (fun p => P (S k) (p_x p)) pts).
Proof.
  unfold next_row. cbv zeta. rewrite combine_map, !map2_map_r, map_map, ?map2_map_r. cbn [fst snd].
  assert (EA : sumR (map (fun p => p_w p * p_x p * P k (p_x p) * P k (p_x p)) pts) = A k).
  { apply sumR_map_ext. intro; cbv beta; ring. }
  assert (EB : sumR (map (fun p => p_w p * p_x p * Pm k (p_x p) * P k (p_x p)) pts) = B k).
  { apply sumR_map_ext. intro; cbv beta; ring. }
  rewrite EA, EB.
  assert (EP : map (fun p => P (S k) (p_x p)) pts = map (fun p => W k (p_x p) * G k) pts).
  { apply map_ext. intro; apply P_S. }
  assert (ED : D (S k) = sumR (map (fun p => p_w p * (W k (p_x p) * G k) * p_y p) pts)).
  { apply sumR_map_ext. intro. now rewrite P_S. }
  rewrite EP. unfold the_row. cbn [SS]. rewrite ED. reflexivity.
Qed.

Lemma higher_rows_eq r : forall k,
  higher_rows r pts (map (fun p => P k (p_x p)) pts) (map (fun p => Pm k (p_x p)) pts) (SS k) = map the_row (seq (S k) r).
Proof.
  induction r as [|r IH]; intro k; [reflexivity|].
  cbn [higher_rows seq map]. rewrite next_row_eq. cbn [the_row o_sum]. f_equal.
  rewrite <- (O_S k). apply IH.
Qed.

Lemma fit_rows : fit_orthogonal_poly pts = map the_row (seq 0 (S (Nat.min N_PARAMETERS (length pts) - 1))).
Proof.
  unfold fit_orthogonal_poly. cbn [seq map the_row]. f_equal.
  destruct first_row_eq as (_ & _ & ES). rewrite ES.
  apply (higher_rows_eq (Nat.min N_PARAMETERS (length pts) - 1) 0).
Qed.

Definition est (m : nat) (x : R) : R := sumR (map (fun i => D i * P i x) (seq 0 m)).

Lemma apply_rows_eq x r : forall k e,
  apply_rows (map the_row (seq (S k) r)) x (P k x) (Pm k x) e = e + sumR (map (fun i => D i * P i x) (seq (S k) r)).
Proof.
  induction r as [|r IH]; intros k e; [cbn; lra|].
  cbn [seq map apply_rows sumR the_row o_alpha o_beta o_gamma o_delta].
  rewrite <- W_eq, <- P_S. rewrite <- (O_S k). rewrite IH. lra.
Qed.

Lemma firstn_seq n : forall s k, firstn n (seq s k) = seq s (Nat.min n k).
Proof. induction n as [|n IH]; intros s [|k]; cbn; try reflexivity. now rewrite IH. Qed.

Lemma apply_eq m x : (1 <= m <= Nat.min N_PARAMETERS (length pts))%nat ->
  ortho_apply (fit_orthogonal_poly pts) m x = est m x.
Proof.
  intro H. rewrite fit_rows. cbn [seq map ortho_apply].
  rewrite firstn_map, firstn_seq. destruct first_row_eq as (EG & ED & _).
  change (the_row 0) with (first_row pts). rewrite EG, ED.
  rewrite Nat.min_l by lia.
  change (P 0 0) with (P 0 x).
  pose proof (apply_rows_eq x (m - 1) 0 (P 0 x * D 0)) as E. change (Pm 0 x) with 0 in E. rewrite E.
  unfold est. destruct m as [|m]; [lia|]. cbn [seq map sumR]. replace (S m - 1)%nat with m by lia. lra.
Qed.

(** ** Orthonormality *)
Hypothesis PR : proper pts.

Lemma ip_nonneg f : 0 <= ip f f.
Proof.
  apply sumR_nonneg. intros p I. destruct PR as (_ & _ & Wp). specialize (Wp p I).
  replace (p_w p * f (p_x p) * f (p_x p)) with (p_w p * (f (p_x p) * f (p_x p))) by ring.
  apply Rmult_le_pos; [lra|apply Rle_0_sqr].
Qed.
Lemma ip_definite f : ip f f <= 0 -> forall p, In p pts -> f (p_x p) = 0.
Proof.
  intros H p I. destruct PR as (_ & _ & Wp).
  assert (E : p_w p * f (p_x p) * f (p_x p) = 0).
  { apply (sumR_zero_all (fun p => p_w p * f (p_x p) * f (p_x p)) pts); [|exact H|exact I].
    intros q Iq. specialize (Wp q Iq). replace (p_w q * f (p_x q) * f (p_x q)) with (p_w q * (f (p_x q) * f (p_x q))) by ring.
    apply Rmult_le_pos; [lra|apply Rle_0_sqr]. }
  specialize (Wp p I). apply Rmult_integral in E. destruct E as [E|E]; [|exact E].
  apply Rmult_integral in E. destruct E; [lra|assumption].
Qed.

Lemma inv_sqrt_pos g : 0 < g -> inv_sqrt g <> 0 /\ inv_sqrt g * inv_sqrt g * g = 1.
Proof.
  intro H. unfold inv_sqrt. rewrite (proj2 (Reqb_false_iff g 0)) by lra.
  pose proof (sqrt_lt_R0 g H) as S. split.
  - unfold Rdiv. rewrite Rmult_1_l. apply Rinv_neq_0_compat. lra.
  - rewrite <- (sqrt_sqrt g) at 3 by lra. field. lra.
Qed.

Definition kd (i j : nat) : R := if Nat.eqb i j then 1 else 0.
Definition inv (k : nat) : Prop :=
  (forall i j, (i <= k)%nat -> (j <= k)%nat -> ip (P i) (P j) = kd i j) /\
  (forall i, (i <= k)%nat -> exists a, a <> 0 /\ is_poly i a (P i)) /\
  (forall i, (i < k)%nat -> G i <> 0).

Lemma inv_0 : inv 0.
Proof.
  assert (S0 : 0 < sumR (map p_w pts)).
  { destruct PR as (NE & _ & Wp). destruct pts as [|p l]; [congruence|]. cbn.
    pose proof (Wp p (or_introl eq_refl)). assert (0 <= sumR (map p_w l)) by (apply sumR_nonneg; intros q I; apply Rlt_le, Wp; now right). lra. }
  destruct (inv_sqrt_pos _ S0) as [N1 N2]. split; [|split].
  - intros i j Hi Hj. replace i with 0%nat by lia. replace j with 0%nat by lia. unfold kd. cbn [Nat.eqb].
    rewrite <- N2. unfold ip, P. cbn [seq_of fst]. rewrite <- sumR_map_scale. apply sumR_map_ext. intro; cbv beta; ring.
  - intros i Hi. replace i with 0%nat by lia. exists (inv_sqrt (sumR (map p_w pts))). split; [exact N1|]. cbn. reflexivity.
  - intros i Hi. lia.
Qed.

Lemma O_case k : (k = 0%nat /\ forall x, Pm k x = 0) \/ exists j, k = S j /\ Pm k = P j.
Proof. destruct k as [|j]; [left; split; [reflexivity|]; intro; reflexivity|right]. exists j. split; [reflexivity|apply O_S]. Qed.

Lemma ip_W k h : ip (W k) h = ip (fun x => x * P k x) h - A k * ip (P k) h - B k * ip (Pm k) h.
Proof.
  rewrite (ip_ext (W k) (fun x => (x * P k x + (- A k) * P k x) + (- B k) * Pm k x)) by (intro; rewrite W_eq; ring).
  rewrite ip_add, ip_scale, (ip_add (fun x => x * P k x) (fun x => - A k * P k x)), ip_scale. ring.
Qed.

Lemma kd_same i : kd i i = 1.
Proof. unfold kd. now rewrite Nat.eqb_refl. Qed.
Lemma kd_other i j : i <> j -> kd i j = 0.
Proof. unfold kd. intro H. apply Nat.eqb_neq in H. now rewrite H. Qed.

Lemma W_orthogonal k i : inv k -> (i <= k)%nat -> ip (W k) (P i) = 0.
Proof.
  intros (I1 & _ & I3) Hi. rewrite ip_W.
  destruct (Nat.eq_dec i k) as [->|Nk].
  - rewrite I1, kd_same by lia. destruct (O_case k) as [[-> Z]|(j & -> & Oj)].
    + rewrite (ip_ext (Pm 0) (fun _ => 0)) by exact Z. rewrite ip_zero. unfold A. ring.
    + rewrite Oj, I1, kd_other by lia. unfold A. ring.
  - rewrite (I1 k i), kd_other by lia.
    destruct (O_case k) as [[-> Z]|(j & -> & Oj)]; [lia|].
    rewrite Oj, I1 by lia.
    destruct (Nat.eq_dec i j) as [->|Nj].
    + rewrite kd_same. unfold B. rewrite Oj. rewrite ip_x, ip_sym. ring.
    + rewrite kd_other by lia. rewrite ip_x.
      (* x * P i lies in the span of P (i+1), P i and P (i-1) *)
      assert (Gi : G i <> 0) by (apply I3; lia).
      rewrite ip_sym. rewrite (ip_ext (fun x => x * P i x) (fun x => (/ G i * P (S i) x + A i * P i x) + B i * Pm i x)).
      2:{ intro x. rewrite P_S, W_eq. field. exact Gi. }
      rewrite ip_add, ip_scale, (ip_add (fun x => / G i * P (S i) x)), !ip_scale.
      rewrite (I1 (S i) (S j)), (I1 i (S j)), !kd_other by lia.
      destruct (O_case i) as [[-> Z]|(l & -> & Ol)].
      * rewrite (ip_ext (Pm 0) (fun _ => 0)) by exact Z. rewrite ip_zero. ring.
      * rewrite Ol, I1, kd_other by lia. ring.
Qed.

Lemma W_poly k : inv k -> exists a, a <> 0 /\ is_poly (S k) a (W k).
Proof.
  intros (_ & I2 & _). destruct (I2 k (Nat.le_refl k)) as (a & Na & H). exists a. split; [exact Na|].
  apply (is_poly_ext (S k) a (fun x => (x * P k x + (- A k) * P k x) + (- B k) * Pm k x)).
  { intro x. rewrite W_eq. ring. }
  replace a with ((a + (- A k) * 0) + (- B k) * 0) by ring.
  apply is_poly_add; [apply is_poly_add|].
  - now apply is_poly_x.
  - apply is_poly_scale. now apply (is_poly_lift k a).
  - apply is_poly_scale. destruct (O_case k) as [[-> Z]|(j & -> & Oj)].
    + apply (is_poly_ext 1 0 (fun _ => 0)); [intro; symmetry; apply Z|apply is_poly_zero].
    + rewrite Oj. destruct (I2 j) as (b & _ & Hb); [lia|]. apply (is_poly_lift (S j) 0). now apply (is_poly_lift j b).
Qed.

Lemma inv_step k : inv k -> (S k < length pts)%nat -> inv (S k).
Proof.
  intros I L. pose proof I as (I1 & I2 & I3).
  destruct (W_poly k I) as (a & Na & Hp).
  assert (Pos : 0 < ip (W k) (W k)).
  { destruct (Rlt_le_dec 0 (ip (W k) (W k))) as [?|Hle]; [assumption|exfalso]. apply Na.
    apply (is_poly_roots (S k) a (W k) (map p_x pts) Hp); [apply PR|now rewrite map_length|].
    intros x Ix. apply in_map_iff in Ix. destruct Ix as (p & <- & Ip). now apply ip_definite. }
  destruct (inv_sqrt_pos _ Pos) as [N1 N2]. fold (G k) in N1, N2.
  assert (IPW : forall h, ip (P (S k)) h = G k * ip (W k) h).
  { intro h. rewrite <- ip_scale. apply ip_ext. intro x. rewrite P_S. ring. }
  split; [|split].
  - assert (Q : forall i, (i <= k)%nat -> ip (P (S k)) (P i) = 0).
    { intros i Hi. rewrite IPW, (W_orthogonal k i I Hi). ring. }
    intros i j Hi Hj. destruct (Nat.eq_dec i (S k)) as [->|Ni], (Nat.eq_dec j (S k)) as [->|Nj].
    + rewrite kd_same, IPW, ip_sym, IPW, <- N2. ring.
    + rewrite Q, kd_other by lia. reflexivity.
    + rewrite ip_sym, Q, kd_other by lia. reflexivity.
    + apply I1; lia.
  - intros i Hi. destruct (Nat.eq_dec i (S k)) as [->|Ni]; [|apply I2; lia].
    exists (G k * a). split; [now apply Rmult_integral_contrapositive_currified|].
    apply (is_poly_ext (S k) (G k * a) (fun x => G k * W k x)); [intro; rewrite P_S; ring|now apply is_poly_scale].
  - intros i Hi. destruct (Nat.eq_dec i k) as [->|Ni]; [exact N1|apply I3; lia].
Qed.

Lemma inv_all k : (k < length pts)%nat -> inv k.
Proof. induction k as [|k IH]; intro L; [apply inv_0|]. apply inv_step; [apply IH; lia|exact L]. Qed.

Lemma orthonormal i j : (i < length pts)%nat -> (j < length pts)%nat -> ip (P i) (P j) = kd i j.
Proof. intros Li Lj. destruct (inv_all (Nat.max i j)) as (I1 & _); [lia|]. apply I1; lia. Qed.
Lemma P_poly i : (i < length pts)%nat -> exists a, a <> 0 /\ is_poly i a (P i).
Proof. intro L. destruct (inv_all i L) as (_ & I2 & _). now apply I2. Qed.

(** ** Least squares *)
Definition comb (e : nat -> R) (m : nat) (x : R) : R := sumR (map (fun i => e i * P i x) (seq 0 m)).

Lemma seq_snoc m : seq 0 (S m) = seq 0 m ++ [m].
Proof. apply (seq_S m 0). Qed.
Lemma sumR_snoc l v : sumR (l ++ [v]) = sumR l + v.
Proof. induction l; cbn; [lra|rewrite IHl; lra]. Qed.
Lemma sum_S (f : nat -> R) m : sumR (map f (seq 0 (S m))) = sumR (map f (seq 0 m)) + f m.
Proof. rewrite seq_snoc, map_app. cbn [map]. apply sumR_snoc. Qed.
Lemma comb_S e m x : comb e (S m) x = comb e m x + e m * P m x.
Proof. apply sum_S. Qed.

Lemma sum_ext_lt (f g : nat -> R) m : (forall i, (i < m)%nat -> f i = g i) -> sumR (map f (seq 0 m)) = sumR (map g (seq 0 m)).
Proof. intro H. apply sumR_map_ext_in. intros i I. apply H. apply in_seq in I. lia. Qed.

Lemma span m : (m <= length pts)%nat -> forall c, length c = m -> exists e, forall x, poly c x = comb e m x.
Proof.
  induction m as [|m IH]; intros L c Lc.
  - destruct c; [|discriminate]. exists (fun _ => 0). reflexivity.
  - destruct (poly_is_poly m c Lc) as (a & Ha). destruct (P_poly m) as (b & Nb & Hb); [lia|].
    assert (H : is_poly m 0 (fun x => poly c x + - (a / b) * P m x)).
    { replace 0 with (a + - (a / b) * b) by (field; exact Nb). apply is_poly_add; [exact Ha|now apply is_poly_scale]. }
    assert (E : exists e, forall x, poly c x + - (a / b) * P m x = comb e m x).
    { destruct m as [|m].
      - exists (fun _ => 0). intro x. rewrite H. reflexivity.
      - destruct (is_poly_drop m _ H) as (a' & H'). destruct (is_poly_coefficients m a' _ H') as (c' & Lc' & Ec').
        destruct (IH ltac:(lia) c' Lc') as (e & Ee). exists e. intro x. rewrite Ec'. apply Ee. }
    destruct E as (e & Ee). exists (fun i => if Nat.eqb i m then a / b else e i). intro x.
    rewrite comb_S, Nat.eqb_refl.
    assert (Ec : comb (fun i => if Nat.eqb i m then a / b else e i) m x = comb e m x).
    { apply sum_ext_lt. intros i Hi. rewrite (proj2 (Nat.eqb_neq i m)) by lia. reflexivity. }
    rewrite Ec, <- Ee. lra.
Qed.

Lemma comb_poly e m : (1 <= m)%nat -> (m <= length pts)%nat -> exists c, length c = m /\ forall x, comb e m x = poly c x.
Proof.
  intros H1 H2. assert (Q : exists a, is_poly (m - 1) a (comb e m)).
  { induction m as [|m IH]; [lia|]. destruct (P_poly m) as (b & _ & Hb); [lia|].
    replace (S m - 1)%nat with m by lia. destruct m as [|m].
    - exists (0 + e 0%nat * b). apply (is_poly_ext 0 _ (fun x => 0 + e 0%nat * P 0 x)).
      + intro x. unfold comb. cbn. lra.
      + apply is_poly_add; [apply is_poly_zero|now apply is_poly_scale].
    - destruct IH as (a & Ha); [lia|lia|]. replace (S m - 1)%nat with m in Ha by lia.
      exists (0 + e (S m) * b). apply (is_poly_ext (S m) _ (fun x => comb e (S m) x + e (S m) * P (S m) x)).
      + intro x. symmetry. apply comb_S.
      + apply is_poly_add; [now apply (is_poly_lift m a)|now apply is_poly_scale]. }
  destruct Q as (a & Ha). destruct (is_poly_coefficients _ _ _ Ha) as (c & Lc & Ec). exists c. split; [lia|exact Ec].
Qed.

Definition yy : R := sumR (map (fun p => p_w p * p_y p ^ 2) pts).

Lemma ip_comb_P e m j : (m <= length pts)%nat -> (j < length pts)%nat ->
  ip (comb e m) (P j) = if Nat.ltb j m then e j else 0.
Proof.
  intros Lm Lj. induction m as [|m IH].
  - unfold comb. cbn. apply ip_zero.
  - rewrite (ip_ext (comb e (S m)) (fun x => comb e m x + e m * P m x)) by (intro; apply comb_S).
    rewrite ip_add, ip_scale, IH, orthonormal by lia.
    destruct (Nat.ltb j m) eqn:E1, (Nat.ltb j (S m)) eqn:E2;
      try apply Nat.ltb_lt in E1; try apply Nat.ltb_ge in E1; try apply Nat.ltb_lt in E2; try apply Nat.ltb_ge in E2; try lia.
    + rewrite kd_other by lia. ring.
    + replace j with m by lia. rewrite kd_same. ring.
    + rewrite kd_other by lia. ring.
Qed.
Lemma ip_comb e m : (m <= length pts)%nat -> ip (comb e m) (comb e m) = sumR (map (fun i => e i ^ 2) (seq 0 m)).
Proof.
  intro Lm. induction m as [|m IH].
  - unfold comb. cbn. apply ip_zero.
  - rewrite (ip_ext (comb e (S m)) (fun x => comb e m x + e m * P m x)) by (intro; apply comb_S).
    rewrite ip_add, ip_scale, ip_sym, (ip_sym (P m)).
    rewrite (ip_ext (comb e (S m)) (fun x => comb e m x + e m * P m x)) by (intro; apply comb_S).
    rewrite ip_add, ip_scale, IH, sum_S by lia.
    rewrite (ip_comb_P e (S m) m) by lia. rewrite (ip_sym (P m)), (ip_comb_P e m m) by lia.
    rewrite Nat.ltb_irrefl. rewrite (proj2 (Nat.ltb_lt m (S m))) by lia. ring.
Qed.
Lemma ipy_comb e m : ipy (comb e m) = sumR (map (fun i => e i * D i) (seq 0 m)).
Proof.
  induction m as [|m IH].
  - unfold ipy, comb. cbn. rewrite (sumR_map_ext _ (fun _ => 0)); [apply sumR_map_zero|]. intro; cbv beta; ring.
  - rewrite sum_S, <- IH. unfold D, ipy. rewrite <- sumR_map_scale, <- sumR_map_add. apply sumR_map_ext. intro p. rewrite comb_S. ring.
Qed.

Lemma error_expand f : squared_error pts f = yy - 2 * ipy f + ip f f.
Proof.
  unfold squared_error, yy, ipy, ip.
  replace (sumR (map (fun p => p_w p * p_y p ^ 2) pts) - 2 * sumR (map (fun p => p_w p * f (p_x p) * p_y p) pts))
    with (sumR (map (fun p => p_w p * p_y p ^ 2) pts) + (- 2) * sumR (map (fun p => p_w p * f (p_x p) * p_y p) pts)) by ring.
  rewrite <- sumR_map_scale, <- !sumR_map_add. apply sumR_map_ext. intro; cbv beta; ring.
Qed.

Lemma error_comb e m : (m <= length pts)%nat ->
  squared_error pts (comb e m) = yy - sumR (map (fun i => D i ^ 2) (seq 0 m)) + sumR (map (fun i => (e i - D i) ^ 2) (seq 0 m)).
Proof.
  intro L. rewrite error_expand, ip_comb, ipy_comb by exact L.
  replace (sumR (map (fun i => (e i - D i) ^ 2) (seq 0 m))) with
    (sumR (map (fun i => e i ^ 2) (seq 0 m)) + ((-2) * sumR (map (fun i => e i * D i) (seq 0 m)) + sumR (map (fun i => D i ^ 2) (seq 0 m)))).
  - ring.
  - rewrite <- sumR_map_scale, <- !sumR_map_add. apply sumR_map_ext. intro; cbv beta; ring.
Qed.

Lemma error_ext f g : (forall x, f x = g x) -> squared_error pts f = squared_error pts g.
Proof. intro E. apply sumR_map_ext. intro. now rewrite E. Qed.

Lemma est_comb m x : est m x = comb D m x.
Proof. reflexivity. Qed.

Lemma error_est m : (m <= length pts)%nat -> squared_error pts (est m) = yy - sumR (map (fun i => D i ^ 2) (seq 0 m)).
Proof.
  intro L. rewrite (error_ext (est m) (comb D m)) by (intro; reflexivity). rewrite error_comb by exact L.
  rewrite (sum_ext_lt (fun i => (D i - D i) ^ 2) (fun _ => 0)) by (intros; ring). rewrite sumR_map_zero. ring.
Qed.

Lemma est_least m : (1 <= m)%nat -> (m <= length pts)%nat ->
  exists c, (forall x, est m x = poly c x) /\ least_squares pts m c.
Proof.
  intros H1 H2. destruct (comb_poly D m H1 H2) as (c & Lc & Ec). exists c. split; [exact Ec|]. split; [exact Lc|].
  intros c' Lc'. destruct (span m H2 c' Lc') as (e & Ee).
  rewrite (error_ext (poly c) (est m)) by (intro; symmetry; apply Ec).
  rewrite (error_ext (poly c') (comb e m)) by exact Ee. rewrite error_est, error_comb by exact H2.
  assert (NN : forall i, In i (seq 0 m) -> 0 <= (e i - D i) ^ 2) by (intros; apply pow2_ge_0).
  pose proof (sumR_nonneg (fun i => (e i - D i) ^ 2) (seq 0 m) NN). split; [lra|].
  intros Hle x. rewrite Ee, <- Ec. apply sum_ext_lt. intros i Hi.
  assert (Z : (e i - D i) ^ 2 = 0).
  { apply (sumR_zero_all (fun i => (e i - D i) ^ 2) (seq 0 m) NN); [lra|apply in_seq; lia]. }
  assert (E0 : e i - D i = 0) by nra. replace (e i) with (D i) by lra. reflexivity.
Qed.

Lemma SS_error k : (k < length pts)%nat -> SS k = squared_error pts (est (S k)).
Proof.
  induction k as [|k IH]; intro L.
  - cbn [SS]. unfold squared_error. apply sumR_map_ext. intro p. unfold est. cbn [seq map sumR]. rewrite Rplus_0_r. reflexivity.
  - cbn [SS]. rewrite IH by lia. rewrite !error_est by lia. rewrite (sum_S (fun i => D i ^ 2) (S k)).
    rewrite Rmax_right; [ring|].
    assert (0 <= squared_error pts (est (S (S k)))).
    { apply sumR_nonneg. intros p I. apply Rmult_le_pos; [apply Rlt_le; now apply PR|apply pow2_ge_0]. }
    rewrite error_est, (sum_S (fun i => D i ^ 2) (S k)) in H by lia. lra.
Qed.
End Ortho.
