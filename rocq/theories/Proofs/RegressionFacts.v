(** Weighted linear regression. *)
From Coq Require Import List Bool Reals Lia Lra.
From Verif.Model Require Import Train Regularize.
From Verif.Spec Require Import RegularizeSpec.
From Verif.Proofs Require Import TrainFacts TrainExamples LinkFacts ImportanceFacts TotalFacts.
Import ListNotations.
Local Open Scope R_scope.

Section Regression.
Variables x y w : list R.
Hypothesis Ly : length y = length x.
Hypothesis Lw : length w = length x.
Hypothesis Wp : forall i, (i < length x)%nat -> 0 <= nth i w 0.
Let n := length x.
Let X i := nth i x 0.
Let Y i := nth i y 0.
Let W i := nth i w 0.

Let sw := total n W.
Let swx := total n (fun i => W i * X i).
Let swxx := total n (fun i => W i * (X i * X i)).
Let swy := total n (fun i => W i * Y i).
Let swxy := total n (fun i => W i * X i * Y i).
Let det := sw * swxx - swx * swx.

Lemma regression_sums : linear_regression x y w =
  if Reqb det 0 then None else Some ((swxx * swy - swx * swxy) / det, (sw * swxy - swx * swy) / det).
Proof.
  assert (A : sumR w = sw) by (rewrite sumR_total, Lw; reflexivity).
  assert (B : sumR (map2 Rmult w x) = swx) by (rewrite (map2_total _ _ _ 0 0), Lw by auto; reflexivity).
  assert (C : sumR (map2 Rmult (map (fun v => v * v) x) w) = swxx).
  { rewrite (map2_total _ _ _ 0 0), map_length by (rewrite map_length; auto). apply total_ext. intros i I.
    rewrite (nth_map_lt _ _ _ 0) by exact I. unfold W, X. ring. }
  assert (D : sumR (map2 Rmult w y) = swy) by (rewrite (map2_total _ _ _ 0 0), Lw by (rewrite Lw; auto); reflexivity).
  assert (E : sumR (map2 Rmult (map2 Rmult w x) y) = swxy).
  { rewrite (map2_total _ _ _ 0 0), map2_length_eq, Lw by (rewrite ?map2_length_eq; lia). apply total_ext. intros i I.
    rewrite (nth_map2_lt _ _ _ _ 0 0) by (fold n; unfold n in I; lia). reflexivity. }
  unfold linear_regression. rewrite A, B, C, D, E. reflexivity.
Qed.

Lemma quadratic a b : total n (fun i => W i * (a + b * X i) ^ 2) = a * a * sw + 2 * a * b * swx + b * b * swxx.
Proof.
  rewrite (total_ext n _ (fun i => a * a * W i + (2 * a * b * (W i * X i) + b * b * (W i * (X i * X i))))) by (intros; ring).
  rewrite !total_plus, !total_scal. unfold sw, swx, swxx. ring.
Qed.
Lemma det_pos : spread_out x w -> 0 < det.
Proof.
  intros (i & j & I & J & Pi & Pj & NE).
  assert (S : 0 < sw) by (apply (total_pos n W i); auto).
  set (m := swx / sw).
  assert (Q : 0 < total n (fun k => W k * (- m + 1 * X k) ^ 2)).
  { assert (H : exists h, (h < n)%nat /\ 0 < W h /\ X h <> m).
    { destruct (Req_EM_T (X i) m) as [E|E]; [exists j|exists i]; auto. repeat split; auto. unfold X in *. congruence. }
    destruct H as (h & H & Ph & Nh). apply (total_pos n _ h); auto.
    - intros k K. apply Rmult_le_pos; [apply Wp, K|apply pow2_ge_0].
    - apply Rmult_lt_0_compat; [exact Ph|]. apply square_pos. lra. }
  rewrite quadratic in Q. unfold det.
  replace (- m * - m * sw + 2 * - m * 1 * swx + 1 * 1 * swxx) with (swxx - swx * swx / sw) in Q by (unfold m; field; lra).
  replace (sw * swxx - swx * swx) with (sw * (swxx - swx * swx / sw)) by (field; lra). nra.
Qed.

Lemma error_split a b a' b' :
  swy = a * sw + b * swx -> swxy = a * swx + b * swxx ->
  squared_error x y w a' b' = squared_error x y w a b + total n (fun i => W i * ((a' - a) + (b' - b) * X i) ^ 2).
Proof.
  intros N1 N2. unfold squared_error. fold n.
  assert (G : forall p q, total n (fun i => nth i w 0 * (nth i y 0 - (p + q * nth i x 0)) ^ 2) =
            total n (fun i => W i * (Y i * Y i)) - 2 * p * swy - 2 * q * swxy + (p * p * sw + 2 * p * q * swx + q * q * swxx)).
  { intros p q. fold (X). rewrite <- (quadratic p q).
    rewrite (total_ext n _ (fun i => W i * (Y i * Y i) + ((- 2 * p) * (W i * Y i) + ((- 2 * q) * (W i * X i * Y i) + W i * (p + q * X i) ^ 2))))
      by (intros; unfold W, X, Y; ring).
    rewrite !total_plus, !total_scal. unfold swy, swxy. ring. }
  rewrite !G, quadratic, N1, N2. ring.
Qed.

Lemma regression_minimiser : spread_out x w ->
  exists a b, linear_regression x y w = Some (a, b) /\
    forall a' b', squared_error x y w a b <= squared_error x y w a' b' /\
      (squared_error x y w a' b' = squared_error x y w a b -> a' = a /\ b' = b).
Proof.
  intros Sp. pose proof (det_pos Sp) as D. rewrite regression_sums.
  replace (Reqb det 0) with false by (symmetry; apply Reqb_false_iff; lra).
  set (a := (swxx * swy - swx * swxy) / det). set (b := (sw * swxy - swx * swy) / det).
  exists a, b. split; [reflexivity|]. intros a' b'.
  assert (N1 : swy = a * sw + b * swx) by (unfold a, b; field_simplify; [unfold det; field; unfold det in D; lra|lra]).
  assert (N2 : swxy = a * swx + b * swxx) by (unfold a, b; field_simplify; [unfold det; field; unfold det in D; lra|lra]).
  pose proof (error_split a b a' b' N1 N2) as E.
  assert (T : forall i, (i < n)%nat -> 0 <= W i * ((a' - a) + (b' - b) * X i) ^ 2).
  { intros i I. apply Rmult_le_pos; [apply Wp, I|apply pow2_ge_0]. }
  pose proof (total_nonneg n _ T) as Q. split; [lra|]. intros Z.
  assert (Z' : total n (fun i => W i * ((a' - a) + (b' - b) * X i) ^ 2) = 0) by lra.
  pose proof (total_zero_all n _ T Z') as Al. destruct Sp as (i & j & I & J & Pi & Pj & NE).
  assert (Sq : forall k, (k < n)%nat -> 0 < W k -> (a' - a) + (b' - b) * X k = 0).
  { intros k K Pk. specialize (Al k K). cbn beta in Al. destruct (Req_EM_T ((a' - a) + (b' - b) * X k) 0) as [Q0|Q0]; [exact Q0|].
    pose proof (square_pos _ Q0). nra. }
  pose proof (Sq i I Pi) as Ei. pose proof (Sq j J Pj) as Ej. fold (X i) (X j) in NE.
  assert (F : (b' - b) * (X i - X j) = 0) by nra. apply Rmult_integral in F. destruct F as [F|F]; [|exfalso; lra].
  assert (b' = b) by lra. subst b'. split; [nra|reflexivity].
Qed.
Lemma regression_degenerate : ~ spread_out x w -> linear_regression x y w = None.
Proof.
  intros Ns. rewrite regression_sums. replace (Reqb det 0) with true; [reflexivity|]. symmetry. apply Reqb_iff.
  destruct (Rlt_le_dec 0 sw) as [S|S].
  - assert (E : exists c, forall i, (i < n)%nat -> W i * X i = W i * c).
    { assert (H : exists h, (h < n)%nat /\ 0 < W h).
      { clear - Wp S. fold n in Wp. assert (Q : forall k, (k <= n)%nat -> (exists h, (h < k)%nat /\ 0 < W h) \/ total k W = 0).
        { induction k as [|k IH]; intros K; [right; reflexivity|]. destruct (IH ltac:(lia)) as [(h & H & Ph)|Z].
          - left. exists h. split; [lia|exact Ph].
          - destruct (Rlt_le_dec 0 (W k)) as [P|P]; [left; exists k; split; [lia|exact P]|right].
            rewrite total_S, Z. pose proof (Wp k ltac:(lia)) as Q. fold (W k) in Q. lra. }
        destruct (Q n (le_n n)) as [H|H]; [exact H|unfold sw in S; lra]. }
      destruct H as (h & H & Ph). exists (X h). intros i I. destruct (Req_EM_T (X i) (X h)) as [->|NE]; [reflexivity|].
      destruct (Rlt_le_dec 0 (W i)) as [Pi|Pi].
      - exfalso. apply Ns. exists i, h. auto.
      - pose proof (Wp i I) as Q. fold (W i) in Q. replace (W i) with 0 by lra. ring. }
    destruct E as (c & E).
    assert (A : swx = sw * c) by (unfold swx, sw; rewrite <- total_scal_r; apply total_ext; exact E).
    assert (B : swxx = sw * (c * c)).
    { unfold swxx, sw. rewrite <- total_scal_r. apply total_ext. intros i I.
      replace (W i * (X i * X i)) with (W i * X i * X i) by ring. rewrite (E i I).
      replace (W i * c * X i) with (W i * X i * c) by ring. rewrite (E i I). ring. }
    unfold det. rewrite A, B. ring.
  - assert (Z : sw = 0). { assert (0 <= sw) by (apply total_nonneg, Wp). lra. }
    assert (A : swx = 0).
    { unfold swx. rewrite (total_ext n _ (fun _ => 0)); [apply total_zero|]. intros i I.
      rewrite (total_zero_all n W Wp Z i I). ring. }
    unfold det. rewrite Z, A. ring.
Qed.
End Regression.

Lemma regression_exact x w a b : length w = length x -> (forall i, (i < length x)%nat -> 0 <= nth i w 0) -> spread_out x w ->
  linear_regression x (map (fun v => a + b * v) x) w = Some (a, b).
Proof.
  intros Lw Wp Sp. destruct (regression_minimiser x (map (fun v => a + b * v) x) w) as (a' & b' & E & M); auto.
  { apply map_length. }
  assert (Z : squared_error x (map (fun v => a + b * v) x) w a b = 0).
  { unfold squared_error. rewrite (total_ext _ _ (fun _ => 0)); [apply total_zero|]. intros i I.
    rewrite (nth_map_lt _ _ _ 0) by exact I. ring. }
  destruct (M a b) as (L & Un). rewrite Z in L, Un.
  assert (0 <= squared_error x (map (fun v => a + b * v) x) w a' b').
  { apply total_nonneg. intros i I. apply Rmult_le_pos; [apply Wp, I|apply pow2_ge_0]. }
  destruct Un as (-> & ->); [lra|exact E].
Qed.

Lemma extrapolator_exact eps x u a b : 0 < eps -> length u = length x ->
  (exists i j, (i < length x)%nat /\ (j < length x)%nat /\ nth i x 0 <> nth j x 0) ->
  exists c, extrapolator_fit eps x u (map (fun v => a + b * v) x) = Some c /\ forall t, extrapolator_predict c t = a + b * t.
Proof.
  intros Pe Lu (i & j & I & J & NE). unfold extrapolator_fit.
  assert (Wp : forall k, (k < length x)%nat -> 0 < nth k (map (fun s => 1 / (s * s + eps)) u) 0).
  { intros k K. rewrite (nth_map_lt _ _ _ 0) by lia. apply Rdiv_lt_0_compat; nra. }
  rewrite regression_exact.
  - exists (a, b). split; [reflexivity|]. intros t. unfold extrapolator_predict. cbn. ring.
  - rewrite map_length. exact Lu.
  - intros k K. left. apply Wp, K.
  - exists i, j. auto 6.
Qed.
