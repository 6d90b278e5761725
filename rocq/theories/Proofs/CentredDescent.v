(** A step towards the mean residuals that keeps the weighted mean. *)
From Coq Require Import List Reals Lia Lra Psatz.
From Verif.Spec Require Import RegularizeSpec.
From Verif.Proofs Require Import TotalFacts.
Local Open Scope R_scope.

Section Steps.
Variables (n : nat) (w s : nat -> R) (low : R).
Hypothesis Hw : forall j, (j < n)%nat -> 0 <= w j.
Hypothesis HW : 0 < total n w.
Hypothesis Hlow : 0 < low.
Hypothesis Hs : forall j, (j < n)%nat -> low <= s j <= 1.

Definition avg (u : nat -> R) : R := total n (fun j => w j * u j) / total n w.
Definition norm (u : nat -> R) : R := total n (fun j => w j * (u j * u j)).
(** One pass with learning rate [lam]. *)
Definition pass (lam : R) (r : nat -> R) (j : nat) : R := r j - lam * (s j * r j - avg (fun j => s j * r j)).
(** The residuals that a pass does not change. *)
Definition rest (d : R) (j : nat) : R := d / avg (fun j => / s j) / s j.

Lemma s_pos j : (j < n)%nat -> 0 < s j.
Proof. intro J. specialize (Hs j J). lra. Qed.
Lemma avg_ext u v : (forall j, (j < n)%nat -> u j = v j) -> avg u = avg v.
Proof. intro E. unfold avg. f_equal. apply total_ext. intros j J. rewrite (E j J). reflexivity. Qed.
Lemma avg_plus u v : avg (fun j => u j + v j) = avg u + avg v.
Proof.
  unfold avg. rewrite (total_ext n (fun j => w j * (u j + v j)) (fun j => w j * u j + w j * v j)) by (intros; ring).
  rewrite total_plus. field. lra.
Qed.
Lemma avg_scal c u : avg (fun j => c * u j) = c * avg u.
Proof.
  unfold avg. rewrite (total_ext n (fun j => w j * (c * u j)) (fun j => c * (w j * u j))) by (intros; ring).
  rewrite total_scal. field. lra.
Qed.
Lemma avg_const c : avg (fun _ => c) = c.
Proof. unfold avg. rewrite total_scal_r. field. lra. Qed.
Lemma avg_ge c u : (forall j, (j < n)%nat -> c <= u j) -> c <= avg u.
Proof.
  intro H. rewrite <- (avg_const c). unfold avg. apply Rmult_le_compat_r; [left; apply Rinv_0_lt_compat; exact HW|].
  apply total_le. intros j J. apply Rmult_le_compat_l; auto.
Qed.
Lemma inverse_ge : 1 <= avg (fun j => / s j).
Proof.
  apply avg_ge. intros j J. pose proof (s_pos j J) as P. specialize (Hs j J). rewrite <- Rinv_1. apply Rinv_le_contravar; lra.
Qed.

Lemma rest_avg d : avg (rest d) = d.
Proof.
  unfold rest, Rdiv. pose proof inverse_ge as I. rewrite avg_scal. field. lra.
Qed.
Lemma rest_scaled d j : (j < n)%nat -> s j * rest d j = d / avg (fun j => / s j).
Proof. intro J. unfold rest. pose proof (s_pos j J). pose proof inverse_ge. field. lra. Qed.

Lemma pass_avg lam r : avg (pass lam r) = avg r.
Proof.
  set (K := avg (fun j => s j * r j)).
  rewrite (avg_ext _ (fun j => r j + ((- lam) * (s j * r j) + lam * K))) by (intros; unfold pass; fold K; ring).
  rewrite (avg_plus r (fun j => (- lam) * (s j * r j) + lam * K)), (avg_plus (fun j => (- lam) * (s j * r j))), (avg_scal (- lam)), avg_const. fold K. ring.
Qed.
(** The distance from the residuals at rest makes the same pass. *)
Lemma pass_distance lam r d j : (j < n)%nat -> pass lam r j - rest d j = pass lam (fun j => r j - rest d j) j.
Proof.
  intro J. unfold pass.
  rewrite (avg_ext (fun j => s j * (r j - rest d j)) (fun j => s j * r j + - (d / avg (fun j => / s j)))).
  2:{ intros i I. rewrite <- (rest_scaled d i I). ring. }
  rewrite (avg_plus (fun j => s j * r j)), avg_const, <- (rest_scaled d j J). ring.
Qed.

Lemma norm_ext u v : (forall j, (j < n)%nat -> u j = v j) -> norm u = norm v.
Proof. intro E. apply total_ext. intros j J. rewrite (E j J). reflexivity. Qed.
Lemma norm_nonneg u : 0 <= norm u.
Proof. apply total_nonneg. intros j J. apply Rmult_le_pos; [auto|nra]. Qed.
Lemma norm_at u j : (j < n)%nat -> w j * (u j * u j) <= norm u.
Proof. intro J. apply (total_term n (fun j => w j * (u j * u j))); [|exact J]. intros i I. apply Rmult_le_pos; [auto|nra]. Qed.
Lemma norm_sum u v : norm (fun j => u j + v j) <= 5 / 4 * norm u + 5 * norm v.
Proof.
  unfold norm. rewrite <- !total_scal, <- total_plus. apply total_le. intros j J.
  assert (P : (u j + v j) * (u j + v j) <= 5 / 4 * (u j * u j) + 5 * (v j * v j)).
  { pose proof (Rle_0_sqr (u j - 4 * v j)) as Q. unfold Rsqr in Q. nra. }
  specialize (Hw j J). nra.
Qed.

Lemma pass_norm lam q : 0 <= lam <= 1 -> avg q = 0 -> norm (pass lam q) <= norm q * (1 - lam * low).
Proof.
  intros L A0. set (K := avg (fun j => s j * q j)).
  assert (T0 : total n (fun j => w j * q j) = 0).
  { unfold avg in A0. apply (f_equal (fun x => x * total n w)) in A0. unfold Rdiv in A0. rewrite Rmult_assoc, Rinv_l in A0 by lra. lra. }
  assert (TK : total n (fun j => w j * (s j * q j)) = K * total n w) by (unfold K, avg; field; lra).
  set (A := total n (fun j => w j * (s j * (q j * q j)))).
  set (B := total n (fun j => w j * (s j * s j * (q j * q j)))).
  assert (E : norm (pass lam q) = norm q - 2 * lam * A + lam * lam * (B - K * K * total n w)).
  { unfold norm at 1.
    rewrite (total_ext n _ (fun j => w j * (q j * q j) + ((- (2 * lam)) * (w j * (s j * (q j * q j))) + ((2 * lam * K) * (w j * q j) +
      ((lam * lam) * (w j * (s j * s j * (q j * q j))) + ((- (2 * lam * lam * K)) * (w j * (s j * q j)) + (lam * lam * K * K) * w j)))))).
    2:{ intros j J. unfold pass. fold K. ring. }
    rewrite !total_plus, !total_scal, T0, TK. fold A B. unfold norm. ring. }
  assert (BA : B <= A).
  { apply total_le. intros j J. specialize (Hs j J). specialize (Hw j J). pose proof (Rle_0_sqr (q j)) as Q. unfold Rsqr in Q.
    apply Rmult_le_compat_l; [exact Hw|]. apply Rmult_le_compat_r; [exact Q|]. nra. }
  assert (NA : low * norm q <= A).
  { unfold norm. rewrite <- total_scal. apply total_le. intros j J. specialize (Hs j J). specialize (Hw j J). pose proof (Rle_0_sqr (q j)) as Q. unfold Rsqr in Q.
    assert (0 <= w j * (q j * q j)) by (apply Rmult_le_pos; lra). nra. }
  pose proof (norm_nonneg q) as N0. rewrite E.
  assert (0 <= K * K * total n w) by (apply Rmult_le_pos; [nra|lra]).
  assert (A0' : 0 <= A) by (apply Rle_trans with (2 := NA); apply Rmult_le_pos; lra).
  assert (P1 : lam * lam * (B - K * K * total n w) <= lam * lam * A) by (apply Rmult_le_compat_l; nra).
  assert (P2 : lam * lam * A <= lam * A) by (apply Rmult_le_compat_r; [exact A0'|]; clear - L; nra).
  assert (P3 : lam * (low * norm q) <= lam * A) by (apply Rmult_le_compat_l; lra).
  set (X := lam * lam * (B - K * K * total n w)) in *. set (Y := lam * lam * A) in *. replace (norm q * (1 - lam * low)) with (norm q - lam * (low * norm q)) by ring.
  set (Z := lam * (low * norm q)) in *. replace (2 * lam * A) with (2 * (lam * A)) by ring. set (U := lam * A) in *. lra.
Qed.

(** A number of passes. *)
Fixpoint passes (rate : nat -> R) (r0 : nat -> R) (T : nat) : nat -> R :=
  match T with O => r0 | S k => pass (rate k) (passes rate r0 k) end.

Lemma passes_avg rate r0 T : avg (passes rate r0 T) = avg r0.
Proof. induction T as [|T IH]; cbn [passes]; [reflexivity|]. rewrite pass_avg. exact IH. Qed.

Lemma passes_close rate r0 rho : 0 <= rho -> (forall k, rho <= rate k <= 1) -> forall T,
  norm (fun j => passes rate r0 T j - rest (avg r0) j) <= norm (fun j => r0 j - rest (avg r0) j) * (1 - rho * low) ^ T.
Proof.
  intros H0 HR. assert (L1 : low <= 1).
  { destruct (Rle_lt_dec low 1) as [X|X]; [exact X|]. exfalso. assert (Z : total n w = total n (fun _ => 0)).
    { apply total_ext. intros j J. specialize (Hs j J). lra. } rewrite total_zero in Z. lra. }
  induction T as [|T IH]; cbn [passes pow]; [lra|].
  rewrite (norm_ext _ (pass (rate T) (fun j => passes rate r0 T j - rest (avg r0) j))) by (intros; apply pass_distance; assumption).
  specialize (HR T).
  eapply Rle_trans; [apply pass_norm; [lra|]|].
  - rewrite (avg_ext _ (fun j => passes rate r0 T j + (-1) * rest (avg r0) j)) by (intros; ring).
    rewrite avg_plus, avg_scal, passes_avg, rest_avg. ring.
  - set (q := norm _) in *. set (q0 := norm (fun j => r0 j - _)) in *. assert (Q : 0 <= q) by apply norm_nonneg. clearbody q q0.
    set (P := (1 - rho * low) ^ T) in *. clearbody P.
    assert (rho * low <= rate T * low) by (apply Rmult_le_compat_r; lra).
    assert (rho * low <= 1) by nra.
    apply Rle_trans with (q * (1 - rho * low)); [apply Rmult_le_compat_l; lra|].
    apply Rle_trans with (q0 * P * (1 - rho * low)); [apply Rmult_le_compat_r; lra|right; ring].
Qed.

Lemma passes_norm rate r0 : (forall k, 0 <= rate k <= 1) -> forall T,
  norm (passes rate r0 T) <= 25 / 16 * norm r0 + 45 / 4 * norm (rest (avg r0)).
Proof.
  intros HR T. pose proof (passes_close rate r0 0 ltac:(lra) HR T) as C. replace (1 - 0 * low) with 1 in C by ring. rewrite pow1, Rmult_1_r in C.
  rewrite (norm_ext (passes rate r0 T) (fun j => (passes rate r0 T j - rest (avg r0) j) + rest (avg r0) j)) by (intros; ring).
  eapply Rle_trans; [apply norm_sum|].
  pose proof (norm_sum r0 (fun j => (-1) * rest (avg r0) j)) as S.
  rewrite (norm_ext (fun j => r0 j + _) (fun j => r0 j - rest (avg r0) j)) in S by (intros; ring).
  assert (E : norm (fun j => (-1) * rest (avg r0) j) = norm (rest (avg r0))) by (apply total_ext; intros; ring).
  rewrite E in S. lra.
Qed.
Lemma passes_same rate r0 i j : s i = s j -> r0 i = r0 j -> forall T, passes rate r0 T i = passes rate r0 T j.
Proof.
  intros E0 E1. induction T as [|T IH]; cbn [passes]; [exact E1|]. unfold pass. rewrite E0, IH. reflexivity.
Qed.
End Steps.
