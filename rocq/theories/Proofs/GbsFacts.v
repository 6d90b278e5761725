(** The background subtraction regressor. *)
From Coq Require Import List Bool Reals Lia Lra Psatz.
From Verif.Model Require Import Num LexBins Train Predict Link Estimators Regularize Gbs BinSmoothers.
From Verif.Spec Require Import TrainSpec EstimatorSpec GbsSpec.
From Verif.Proofs Require Import TrainFacts TrainExamples PredictFacts ImportanceFacts LinkFacts EstimatorFacts RegularizeFacts.
Import ListNotations.
Local Open Scope R_scope.

Section Bin.
Variables (lex : list nat) (y w p : list R) (al : R) (k : nat).
Hypotheses (Hy : per_row lex y) (Hw : per_row lex w) (Hp : per_row lex p).
Notation nn := (fun j => nth j w 0 * (nth j y 0 - nth j p 0)).
Notation dd := (fun j => nth j w 0 * (1 + al)).
Notation N := (bin_sum lex nn k).
Notation W := (bin_weight lex w k).
Notation D := (W * (1 + al) + 1).

Lemma gbs_n j : (j < length lex)%nat -> nth j (map2 Rmult (map2 Rminus y p) w) 0 = nn j.
Proof. intro H. rewrite (at_map2 lex), (at_map2 lex) by (auto using pr_map2). apply Rmult_comm. Qed.
Lemma gbs_d j : (j < length lex)%nat -> nth j (map (fun w => w * (1 + al)) w) 0 = dd j.
Proof. intro H. rewrite (at_map lex) by auto. reflexivity. Qed.
Lemma gbs_prod u v f g : per_row lex u -> per_row lex v ->
  (forall j, (j < length lex)%nat -> nth j u 0 = f j) -> (forall j, (j < length lex)%nat -> nth j v 0 = g j) ->
  bin_total lex (map2 Rmult u v) k = bin_sum lex (fun j => f j * g j) k.
Proof.
  intros Hu Hv E F. rewrite bin_total_sum by auto using pr_map2. apply bin_sum_ext. intros j Hj.
  rewrite (at_map2 lex) by auto. rewrite E, F by auto. reflexivity.
Qed.

Definition gbs_spread : R := bin_sum lex (fun j => (D * nn j - N * dd j) ^ 2) k + N ^ 2.

Lemma gbs_variance :
  D ^ 2 * bin_sum lex (fun j => nn j * nn j) k - 2 * N * D * bin_sum lex (fun j => nn j * dd j) k
  + N ^ 2 * (bin_sum lex (fun j => dd j * dd j) k + 1 ^ 2) = gbs_spread.
Proof.
  unfold gbs_spread. set (A := D). set (B := N). clearbody A B.
  rewrite (bin_sum_ext lex (fun j => (A * nn j - B * dd j) ^ 2)
    (fun j => (A ^ 2 * (nn j * nn j) + (- (2 * B * A)) * (nn j * dd j)) + B ^ 2 * (dd j * dd j))) by (intros; ring).
  rewrite (bin_sum_plus lex (fun j => A ^ 2 * (nn j * nn j) + (- (2 * B * A)) * (nn j * dd j))).
  rewrite (bin_sum_plus lex (fun j => A ^ 2 * (nn j * nn j))).
  rewrite (bin_sum_scal lex (A ^ 2)), (bin_sum_scal lex (- (2 * B * A))), (bin_sum_scal lex (B ^ 2)). ring.
Qed.

Lemma gbs_spread_nonneg : 0 <= gbs_spread.
Proof.
  unfold gbs_spread. apply Rplus_le_le_0_compat; [|apply pow2_ge_0].
  apply bin_sum_nonneg. intros. apply pow2_ge_0.
Qed.

Lemma gbs_value n : nonneg w -> 0 <= al -> (k < n)%nat ->
  nth_error (gbs_parameters al lex n y w p) k = Some (Some (N / D, sqrt (gbs_spread / D ^ 4))).
Proof.
  intros Pw Ha Hk. unfold gbs_parameters. rewrite nth_error_map, (nth_error_nth' _ 0%nat) by (rewrite seq_length; auto).
  rewrite seq_nth by auto. cbn [option_map plus].
  set (nl := map2 Rmult (map2 Rminus y p) w). set (dl := map (fun w => w * (1 + al)) w).
  assert (Pn : per_row lex nl) by (unfold nl; auto using pr_map2).
  assert (Pd : per_row lex dl) by (unfold dl; auto using pr_map).
  rewrite (gbs_prod nl dl nn dd), (gbs_prod nl nl nn nn), (gbs_prod dl dl dd dd) by (auto using gbs_n, gbs_d).
  rewrite (bin_total_sum lex nl), (bin_total_sum lex dl) by auto.
  rewrite (bin_sum_ext lex (at_row nl) nn) by (intros; apply gbs_n; auto).
  rewrite (bin_sum_ext lex (at_row dl) (fun j => (1 + al) * nth j w 0))
    by (intros; cbv beta; unfold dl; rewrite gbs_d by auto; ring).
  rewrite bin_sum_scal. fold W. rewrite (Rmult_comm (1 + al) W).
  assert (W0 : 0 <= W) by (apply bin_sum_nonneg; intros; apply nonneg_at; auto).
  assert (D0 : 0 < D) by (assert (0 <= W * (1 + al)) by (apply Rmult_le_pos; lra); lra).
  unfold gbs_bin. rewrite (proj2 (Reqb_false_iff D 0)) by lra. rewrite gbs_variance.
  rewrite (proj2 (Rltb_false _ 0)); [reflexivity|].
  apply Rmult_le_pos; [apply gbs_spread_nonneg|]. left. apply Rinv_0_lt_compat, pow_lt; auto.
Qed.

Lemma gbs_error x : bin_error lex y w p k x =
  bin_sum lex (fun j => nth j w 0 * (nth j y 0 - nth j p 0) ^ 2) k - 2 * x * N + x ^ 2 * W.
Proof.
  unfold bin_error, bin_weight.
  rewrite (bin_sum_ext lex _ (fun j => (nth j w 0 * (nth j y 0 - nth j p 0) ^ 2 + (- (2 * x)) * nn j) + x ^ 2 * nth j w 0))
    by (intros; ring).
  rewrite (bin_sum_plus lex (fun j => nth j w 0 * (nth j y 0 - nth j p 0) ^ 2 + (- (2 * x)) * nn j)).
  rewrite (bin_sum_plus lex (fun j => nth j w 0 * (nth j y 0 - nth j p 0) ^ 2)).
  rewrite (bin_sum_scal lex (- (2 * x))), (bin_sum_scal lex (x ^ 2)). ring.
Qed.

Lemma gbs_ridge n : nonneg w -> 0 <= al -> (k < n)%nat ->
  exists s u, nth_error (gbs_parameters al lex n y w p) k = Some (Some (s, u)) /\
    (forall x, ridge_error lex y w p k al s <= ridge_error lex y w p k al x) /\
    (forall x, ridge_error lex y w p k al x = ridge_error lex y w p k al s -> x = s) /\
    bin_error lex y w p k s <= bin_error lex y w p k 0 /\ 0 <= u.
Proof.
  intros Pw Ha Hk. exists (N / D), (sqrt (gbs_spread / D ^ 4)). split; [apply gbs_value; auto|].
  assert (W0 : 0 <= W) by (apply bin_sum_nonneg; intros; apply nonneg_at; auto).
  assert (D0 : 0 < D) by (assert (0 <= W * (1 + al)) by (apply Rmult_le_pos; lra); lra).
  set (s := N / D). assert (E : N = s * D) by (unfold s; field; lra).
  assert (Q : forall x, ridge_error lex y w p k al x = ridge_error lex y w p k al s + D * (x - s) ^ 2).
  { intro x. unfold ridge_error. rewrite !gbs_error. rewrite E. ring. }
  assert (PQ : forall x, 0 <= D * (x - s) ^ 2) by (intro; apply Rmult_le_pos; [lra|apply pow2_ge_0]).
  split; [intro x; rewrite (Q x); pose proof (PQ x); lra|]. split.
  { intros x H. rewrite (Q x) in H. assert (Z : D * (x - s) ^ 2 = 0) by lra.
    apply Rmult_integral in Z. destruct Z as [Z|Z]; [lra|]. cbn in Z. rewrite Rmult_1_r in Z.
    apply Rmult_integral in Z. lra. }
  split; [|apply sqrt_pos].
  pose proof (Q 0) as H0. pose proof (PQ 0). unfold ridge_error in H0.
  assert (0 <= (1 + al * W) * s ^ 2).
  { apply Rmult_le_pos; [|apply pow2_ge_0]. assert (0 <= al * W) by (apply Rmult_le_pos; auto). lra. }
  replace ((1 + al * W) * 0 ^ 2) with 0 in H0 by ring. lra.
Qed.

Lemma gbs_shrink n s u : nonneg w -> 0 <= al -> (k < n)%nat -> 0 < W ->
  nth_error (gbs_parameters al lex n y w p) k = Some (Some (s, u)) ->
  s = mean_residual lex y w p k * (W / (1 + (1 + al) * W)).
Proof.
  intros Pw Ha Hk W0 H. rewrite gbs_value in H by auto. injection H as <- _.
  assert (D0 : 0 < D) by (assert (0 <= W * (1 + al)) by (apply Rmult_le_pos; lra); lra).
  unfold mean_residual. field. lra.
Qed.

Lemma gbs_zero_uncertainty n s u : nonneg w -> 0 <= al -> (k < n)%nat ->
  (forall j, row_in lex k j -> nth j y 0 = nth j p 0 \/ nth j w 0 = 0) ->
  nth_error (gbs_parameters al lex n y w p) k = Some (Some (s, u)) -> s = 0 /\ u = 0.
Proof.
  intros Pw Ha Hk Hr H. rewrite gbs_value in H by auto. injection H as <- <-.
  assert (Z : forall f : nat -> R, (forall j, row_in lex k j -> f j = 0) -> bin_sum lex f k = 0).
  { intros f Hf. apply Rle_antisym.
    - replace 0 with (bin_sum lex (fun _ => 0 * 0) k) by (rewrite (bin_sum_scal lex 0 (fun _ => 0)); ring).
      apply bin_sum_le. intros j Hj. rewrite Hf by auto. lra.
    - apply bin_sum_nonneg. intros j Hj. rewrite Hf by auto. lra. }
  assert (N0 : N = 0). { apply Z. intros j Hj. destruct (Hr j Hj) as [E|E]; rewrite E; ring. }
  split; [rewrite N0; unfold Rdiv; ring|].
  replace gbs_spread with 0; [unfold Rdiv; rewrite Rmult_0_l; apply sqrt_0|].
  unfold gbs_spread. rewrite N0. rewrite Z; [ring|]. intros j Hj. destruct (Hr j Hj) as [E|E]; rewrite E; ring.
Qed.
End Bin.

(** Shrinkage. *)
Lemma gbs_towards_zero lex y w p al n k s u : per_row lex y -> per_row lex w -> per_row lex p ->
  nonneg w -> 0 <= al -> (k < n)%nat -> 0 < bin_weight lex w k ->
  nth_error (gbs_parameters al lex n y w p) k = Some (Some (s, u)) ->
  0 <= s * mean_residual lex y w p k /\ Rabs s <= Rabs (mean_residual lex y w p k) /\
  (mean_residual lex y w p k <> 0 -> Rabs s < Rabs (mean_residual lex y w p k)) /\
  forall al' s' u', al < al' -> nth_error (gbs_parameters al' lex n y w p) k = Some (Some (s', u')) ->
    Rabs s' <= Rabs s /\ (mean_residual lex y w p k <> 0 -> Rabs s' < Rabs s).
Proof.
  intros Hy Hw Hp Pw Ha Hk W0 H. apply gbs_shrink in H; auto. set (m := mean_residual lex y w p k) in *.
  set (W := bin_weight lex w k) in *.
  assert (F : forall a, 0 <= a -> 0 < W / (1 + (1 + a) * W) < 1).
  { intros a A. assert (0 <= a * W) by (apply Rmult_le_pos; lra). split.
    - apply Rdiv_lt_0_compat; lra.
    - apply Rmult_lt_reg_r with (1 + (1 + a) * W); [lra|]. unfold Rdiv. rewrite Rmult_assoc, Rinv_l; lra. }
  destruct (F al Ha) as [F0 F1]. pose proof (Rabs_pos m).
  assert (AS : Rabs s = Rabs m * (W / (1 + (1 + al) * W))) by (rewrite H, Rabs_mult, (Rabs_right (W / _)); lra).
  split; [rewrite H; replace (m * (W / (1 + (1 + al) * W)) * m) with ((W / (1 + (1 + al) * W)) * (m * m)) by ring; apply Rmult_le_pos; [lra|nra]|].
  split; [rewrite AS; nra|]. split.
  { intro M. apply Rabs_pos_lt in M. rewrite AS. nra. }
  intros al' s' u' L H'. apply gbs_shrink in H'; auto; [|lra]. fold m W in H'.
  destruct (F al') as [G0 G1]; [lra|].
  assert (AS' : Rabs s' = Rabs m * (W / (1 + (1 + al') * W))) by (rewrite H', Rabs_mult, (Rabs_right (W / _)); lra).
  assert (LT : W / (1 + (1 + al') * W) < W / (1 + (1 + al) * W)).
  { unfold Rdiv. apply Rmult_lt_compat_l; auto. apply Rinv_lt_contravar; [|nra].
    apply Rmult_lt_0_compat; nra. }
  rewrite AS, AS'. split; [nra|]. intro M. apply Rabs_pos_lt in M. nra.
Qed.

(** ** Refutations *)
Lemma gbs_always_regularised lex y w p n k s u : per_row lex y -> per_row lex w -> per_row lex p ->
  nonneg w -> (k < n)%nat -> 0 < bin_weight lex w k -> mean_residual lex y w p k <> 0 ->
  nth_error (gbs_parameters 0 lex n y w p) k = Some (Some (s, u)) -> s <> mean_residual lex y w p k.
Proof.
  intros Hy Hw Hp Pw Hk W0 M H. destruct (gbs_towards_zero lex y w p 0 n k s u) as (_ & _ & S & _); auto; [lra|].
  specialize (S M). intro E. rewrite E in S. lra.
Qed.

Definition gb_lex : list nat := [0; 1; 2]%nat.
Definition gb_y : list R := [-1; 0; 1].
Definition gb_w : list R := [1; 1; 1].
Definition gb_p : list R := [0; 0; 0].

Lemma gb_rows : per_row gb_lex gb_y /\ per_row gb_lex gb_w /\ per_row gb_lex gb_p /\ nonneg gb_w.
Proof. repeat split. intros x [<-|[<-|[<-|[]]]]; lra. Qed.

Lemma gb_unregularised : mean_residual gb_lex gb_y gb_w gb_p 2 = 1 /\ bin_weight gb_lex gb_w 2 = 1 /\
  exists u, nth_error (gbs_parameters 0 gb_lex 3 gb_y gb_w gb_p) 2 = Some (Some (1 / 2, u)).
Proof.
  destruct gb_rows as (Hy & Hw & Hp & Pw).
  assert (B : bin_weight gb_lex gb_w 2 = 1).
  { unfold bin_weight, bin_sum, gb_lex, gb_w. cbn [length seq map nth Nat.eqb sumR]. ring. }
  assert (M : mean_residual gb_lex gb_y gb_w gb_p 2 = 1).
  { unfold mean_residual. rewrite B. unfold bin_sum, gb_lex, gb_w, gb_y, gb_p. cbn [length seq map nth Nat.eqb sumR]. field. }
  split; auto. split; auto. eexists. rewrite gbs_value by (auto; try lra; lia).
  assert (N : bin_sum gb_lex (fun j => nth j gb_w 0 * (nth j gb_y 0 - nth j gb_p 0)) 2 = 1).
  { unfold bin_sum, gb_lex, gb_w, gb_y, gb_p. cbn [length seq map nth Nat.eqb sumR]. ring. }
  do 3 f_equal. rewrite N, B. field.
Qed.

Lemma gb_global : gbs_global_scale gb_y gb_w = Some 0.
Proof.
  unfold gbs_global_scale, gb_y, gb_w. cbn [sumR map2]. rewrite (proj2 (Reqb_false_iff _ 0)) by lra. f_equal. field.
Qed.

(** The three bins of a categorical feature, started from the global mean: the
    default smoother turns every bin into NaN. *)
Lemma gb_smoothed : exists s0 u0 s1 u1 s2 u2,
  gbs_parameters 0 gb_lex 3 gb_y gb_w gb_p = [Some (s0, u0); Some (s1, u1); Some (s2, u2)] /\
  forall centres k, default_unordered centres [1; 1; 1] [u0; u1; u2] [s0; s1; s2] k = None.
Proof.
  destruct gb_rows as (Hy & Hw & Hp & Pw).
  assert (V : forall k, (k < 3)%nat -> exists s u, nth_error (gbs_parameters 0 gb_lex 3 gb_y gb_w gb_p) k = Some (Some (s, u)) /\
     (k = 0%nat -> s = - (1 / 2)) /\ (k = 1%nat -> s = 0 /\ u = 0) /\ (k = 2%nat -> s = 1 / 2)).
  { intros k Hk. eexists. eexists. split; [apply gbs_value; auto; lra|]. split; [|split]; intros ->.
    - unfold bin_weight, bin_sum, gb_lex, gb_w, gb_y, gb_p. cbn [length seq map nth Nat.eqb sumR]. field.
    - apply (gbs_zero_uncertainty gb_lex gb_y gb_w gb_p 0 1 Hy Hw Hp 3); auto; [lra| |apply gbs_value; auto; lra].
      intros j Hj. destruct j as [|[|[|j]]]; try discriminate; [left; reflexivity|].
      unfold row_in in Hj. cbn in Hj. destruct j; discriminate.
    - unfold bin_weight, bin_sum, gb_lex, gb_w, gb_y, gb_p. cbn [length seq map nth Nat.eqb sumR]. field. }
  destruct (V 0%nat) as (s0 & u0 & H0 & A0 & _); [lia|]. destruct (V 1%nat) as (s1 & u1 & H1 & _ & A1 & _); [lia|].
  destruct (V 2%nat) as (s2 & u2 & H2 & _ & _ & A2); [lia|]. clear V.
  exists s0, u0, s1, u1, s2, u2. split.
  - assert (L : length (gbs_parameters 0 gb_lex 3 gb_y gb_w gb_p) = 3%nat).
    { unfold gbs_parameters. rewrite map_length, seq_length. reflexivity. }
    destruct (gbs_parameters 0 gb_lex 3 gb_y gb_w gb_p) as [|a [|b [|c [|d l]]]]; try discriminate.
    cbn in H0, H1, H2. congruence.
  - specialize (A0 eq_refl). destruct (A1 eq_refl) as [E1 E1']. specialize (A2 eq_refl). subst s0 s1 u1 s2. intros centres k.
    unfold default_unordered, cut_unseen, normalised. destruct (Reqb _ 0); [reflexivity|]. cbv zeta.
    assert (En : bins_norm [1; 1; 1] [- (1 / 2); 0; 1 / 2] = 0).
    { unfold bins_norm. cbn [sumR map2]. cbv zeta. rewrite (proj2 (Rltb_iff _ _)) by lra. field. }
    rewrite En. cbn [map]. unfold weighted_mean_bins. rewrite mean_zero_uncertainty; auto.
    + destruct k as [|[|[|[|k]]]]; reflexivity.
    + cbn. auto.
    + intro Z. specialize (Z (- (1 / 2) - 0) (or_introl eq_refl)).
      revert Z. rewrite Rabs_R0. unfold Rabs. destruct (Rcase_abs (- (1/2) - 0 - 0)); lra.
Qed.

Lemma gbs_loss_nonneg p y w l : nonneg w -> gbs_loss p y w = Some l -> 0 <= l.
Proof.
  intros Pw H. unfold gbs_loss in H. destruct (Reqb _ 0) eqn:E; [discriminate|]. injection H as <-.
  apply Reqb_false_iff in E.
  assert (G : forall v u, nonneg v -> (forall x, In x u -> 0 <= x) -> 0 <= sumR (map2 Rmult v u)).
  { induction v as [|a v IH]; intros [|b u] A B; cbn; try lra.
    pose proof (A a (or_introl eq_refl)). pose proof (B b (or_introl eq_refl)).
    pose proof (IH u (fun x Hx => A x (or_intror Hx)) (fun x Hx => B x (or_intror Hx))). nra. }
  apply Rmult_le_pos.
  - apply G; auto. clear. revert y. induction p as [|a p IH]; intros [|b y] x Hx; cbn in Hx; try contradiction.
    destruct Hx as [<-|Hx]; [|eauto]. pose proof (pow2_ge_0 (a - b)). cbn in *. lra.
  - assert (0 <= sumR (map2 Rmult (map (fun v => if Reqb v 0 then 0 else 1) y) w)).
    { apply G; auto. intros x Hx. apply in_map_iff in Hx. destruct Hx as (v & <- & _). destruct (Reqb v 0); lra. }
    left. apply Rinv_0_lt_compat. lra.
Qed.

Lemma gbs_loss_zero_targets p y w : (forall v, In v y -> v = 0) -> gbs_loss p y w = None.
Proof.
  intro H. unfold gbs_loss. replace (sumR _) with 0; [rewrite (proj2 (Reqb_iff 0 0)); auto|].
  clear p. revert w H. induction y as [|a y IH]; intros [|b w] H; cbn; auto.
  rewrite (H a (or_introl eq_refl)). rewrite (proj2 (Reqb_iff 0 0)) by auto. rewrite <- IH; [ring|].
  intros; apply H; right; auto.
Qed.

Lemma weighted_squares : forall (y w : list R) g, length y = length w ->
  sumR (map2 (fun v u => u * (v - g) ^ 2) y w) =
  sumR (map2 (fun v u => u * v ^ 2) y w) - 2 * g * sumR (map2 Rmult y w) + g ^ 2 * sumR w.
Proof.
  induction y as [|a y IH]; intros [|b w] g L; cbn [map2 sumR] in *; try discriminate; [ring|].
  injection L as L. rewrite (IH w g L). ring.
Qed.
Lemma baseline_least_squares y w : length y = length w -> nonneg w -> 0 < sumR w ->
  exists g, gbs_global_scale y w = Some g /\
    forall g', sumR (map2 (fun v u => u * (v - g) ^ 2) y w) <= sumR (map2 (fun v u => u * (v - g') ^ 2) y w).
Proof.
  intros L P W. exists (sumR (map2 Rmult y w) / sumR w). unfold gbs_global_scale.
  rewrite (proj2 (Reqb_false_iff _ 0)) by lra. split; [reflexivity|]. intro g'.
  rewrite !weighted_squares by auto. set (A := sumR (map2 Rmult y w)). set (B := sumR w) in *.
  assert (EA : A = A / B * B) by (field; lra). set (g := A / B) in *. clearbody g. rewrite EA. pose proof (pow2_ge_0 (g - g')). nra.
Qed.
