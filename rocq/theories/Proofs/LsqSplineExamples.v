(** A line through three bins of unequal weights. *)
From Coq Require Import List Sorted Bool Arith Reals Lra Lia.
From Verif.Model Require Import Train LsqSpline.
From Verif.Spec Require Import LsqSplineSpec.
From Verif.Proofs Require Import LsqSplineFacts.
Import ListNotations.
Local Open Scope R_scope.

Definition three_bins : spline_bins := [(0, 1); (1, 1); (2, 2)].
Definition three_values : list R := [0; 0; 1].

Lemma is_line s : is_spline 1 [] s <-> exists a b, forall x, s x = a + b * x.
Proof.
  split.
  - intros (p & j & P & J & E). destruct p as [|a [|b [|]]]; try discriminate. destruct j; [|discriminate].
    exists a, b. intro x. rewrite E. unfold spline_of. cbn. ring.
  - intros (a & b & E). exists [a; b], []. repeat split; auto. intro x. rewrite E. unfold spline_of. cbn. ring.
Qed.

(** The minimum of the squares of w * (y - s(x)). *)
Definition best_line (x : R) : R := -4 / 21 + 4 / 7 * x.
Lemma best_is_best a b s : (forall x, s x = a + b * x) ->
  deviations squared_weight three_bins three_values s = deviations squared_weight three_bins three_values best_line
    + ((a + 4 / 21) ^ 2 + ((a + 4 / 21) + (b - 4 / 7)) ^ 2 + 4 * ((a + 4 / 21) + 2 * (b - 4 / 7)) ^ 2).
Proof. intro E. unfold three_bins, three_values, squared_weight, best_line. cbn [deviations]. rewrite !E. field. Qed.

Lemma no_square z : z ^ 2 <= 0 -> z = 0.
Proof. nra. Qed.

Lemma no_squares u v : u ^ 2 + (u + v) ^ 2 + 4 * (u + 2 * v) ^ 2 <= 0 -> u = 0 /\ v = 0.
Proof.
  intro Z. pose proof (pow2_ge_0 u). pose proof (pow2_ge_0 (u + v)). pose proof (pow2_ge_0 (u + 2 * v)).
  assert (U : u = 0) by (apply no_square; lra). assert (V : u + v = 0) by (apply no_square; lra). split; lra.
Qed.

Theorem unequal_weights o knots st st' s : follows_lsq o -> knots = [] ->
  lsq_fit o knots 1 st three_bins three_values = (st', Learned) -> st' = Some s ->
  exists s', is_spline 1 [] s' /\ deviations by_weight three_bins three_values s' < deviations by_weight three_bins three_values s.
Proof.
  intros O -> H F. unfold lsq_fit in H. cbn [Nat.leb Nat.ltb length three_bins andb] in H.
  change [(0, 1); (1, 1); (2, 2)] with three_bins in H.
  destruct (o (map fst three_bins) _ _ _ _) as [f|] eqn:E; [|discriminate]. injection H as <-. injection F as ->.
  destruct (O three_bins _ [] 1%nat s (SSorted_nil _) E) as (L & M).
  apply is_line in L as (a & b & L).
  assert (B : is_spline 1 [] best_line) by (apply is_line; exists (-4 / 21), (4 / 7); reflexivity).
  specialize (M _ B). rewrite (best_is_best a b s L) in M.
  assert (A : a = -4 / 21 /\ b = 4 / 7).
  { destruct (no_squares (a + 4 / 21) (b - 4 / 7)); lra. }
  destruct A as (-> & ->).
  exists (fun x => -2 / 11 + 6 / 11 * x). split; [apply is_line; eauto|].
  unfold three_bins, three_values, by_weight. cbn [deviations]. rewrite !L. lra.
Qed.

(** A function that follows the documentation for these bins. *)
Definition reals_eqb (a b : list R) : bool := if list_eq_dec Req_EM_T a b then true else false.
Definition some_lsq (x y knots w : list R) (k : nat) : option (R -> R) :=
  if reals_eqb x (map fst three_bins) && reals_eqb y three_values && reals_eqb w (map snd three_bins) &&
     reals_eqb knots [] && Nat.eqb k 1 then Some best_line else None.
Lemma reals_eqb_true a b : reals_eqb a b = true -> a = b.
Proof. unfold reals_eqb. destruct (list_eq_dec _ _ _); [auto|discriminate]. Qed.
Lemma reals_eqb_refl a : reals_eqb a a = true.
Proof. unfold reals_eqb. destruct (list_eq_dec _ _ _); congruence. Qed.
Lemma columns_eq : forall X Y : spline_bins, map fst X = map fst Y -> map snd X = map snd Y -> X = Y.
Proof.
  induction X as [|[a b] X IH]; intros [|[c d] Y] A B; cbn in A, B; try discriminate; auto.
  injection A as -> A. injection B as -> B. f_equal. auto.
Qed.

Theorem some_follows : follows_lsq some_lsq /\
  lsq_fit some_lsq [] 1 None three_bins three_values = (Some best_line, Learned) /\
  spline_predict (Some best_line) [0; 1] = Some [-4 / 21; 8 / 21].
Proof.
  split; [|split].
  - intros X y knots k s _. unfold some_lsq.
    destruct (reals_eqb (map fst X) _) eqn:A; [|discriminate]. destruct (reals_eqb y _) eqn:B; [|discriminate].
    destruct (reals_eqb (map snd X) _) eqn:C; [|discriminate]. destruct (reals_eqb knots _) eqn:D; [|discriminate].
    destruct (Nat.eqb k 1) eqn:K; [|discriminate]. cbn [andb]. intro E. injection E as <-.
    apply reals_eqb_true in A, B, C, D. apply Nat.eqb_eq in K. subst y knots k. rewrite (columns_eq X three_bins A C). split.
    + apply is_line. exists (-4 / 21), (4 / 7). reflexivity.
    + intros s' S. apply is_line in S as (a & b & S). rewrite (best_is_best a b s' S).
      pose proof (pow2_ge_0 (a + 4 / 21)). pose proof (pow2_ge_0 ((a + 4 / 21) + (b - 4 / 7))). pose proof (pow2_ge_0 ((a + 4 / 21) + 2 * (b - 4 / 7))). lra.
  - unfold lsq_fit. cbn [Nat.leb Nat.ltb length three_bins andb]. change [(0, 1); (1, 1); (2, 2)] with three_bins.
    unfold some_lsq. rewrite !reals_eqb_refl. reflexivity.
  - cbn [spline_predict map]. unfold best_line. f_equal. f_equal; [|f_equal]; field.
Qed.
