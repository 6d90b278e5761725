(** Cases that meet the hypotheses of the theorems about quantile fits. *)
From Coq Require Import ZArith List Bool Reals Lia Lra Permutation Sorted.
From Verif.Model Require Import Train Regularize Diagnostics Quantile Qpd QuantileFit.
From Verif.Spec Require Import RegularizeSpec QuantileSpec QpdSpec QuantileFitSpec.
From Verif.Proofs Require Import TrainFacts TrainExamples LinkFacts ImportanceFacts TotalFacts QpdFacts DiagnosticsFacts BinOrderFacts GenericFacts QuantileFitFacts.
Import ListNotations.
Local Open Scope R_scope.

Definition value_sort (y : list R) : list R := map fst (insertion_sort (map (fun v => (v, 1)) y)).
Lemma value_sorts : sorts_values value_sort.
Proof.
  intros y. destruct (insertion_sorts (map (fun v => (v, 1)) y)) as [P S]. split.
  - unfold value_sort. apply (Permutation_map fst) in P. rewrite map_map in P. cbn [fst] in P. rewrite map_id in P. exact P.
  - unfold value_sort. clear P. induction S as [|a l S IH F]; [constructor|]. cbn [map]. constructor; [exact IH|].
    apply Forall_map. exact F.
Qed.
(** A search that only tries 0 and 1. *)
Definition two_trials (f : R -> option R) : option R :=
  match f 0, f 1 with Some a, Some b => if Rle_dec a b then Some 0 else Some 1 | _, _ => None end.
Lemma two_trials_fine f : not_worse two_trials f.
Proof.
  intros s E F. unfold two_trials in E. destruct (f 0) as [a|] eqn:A; [|discriminate]. destruct (f 1) as [b|] eqn:B; [|discriminate].
  destruct (Rle_dec a b) as [L|L]; injection E as <-; eexists _, _, _; rewrite ?A, ?B; repeat split; lra.
Qed.
Definition skewed : list R := [0; 1; 3].
Lemma skewed_triplet : sample_triplet value_sort (1 / 4) skewed = Some {| qv_low := 1 / 2; qv_median := 1; qv_high := 2 |}.
Proof.
  destruct (value_sorts skewed) as [P Ss].
  assert (St : StronglySorted Rle skewed) by (unfold skewed; repeat constructor; lra).
  pose proof (sorted_unique _ _ P Ss St) as E.
  unfold sample_triplet. rewrite E. unfold interpolated_quantile, skewed, frac_part. cbn [length Nat.sub].
  replace (INR 2) with 2 by (cbn; lra).
  rewrite (int_part_is (1 / 4 * 2) 0) by (simpl IZR; lra).
  rewrite (int_part_is (1 / 2 * 2) 1) by (simpl IZR; lra).
  rewrite (int_part_is ((1 - 1 / 4) * 2) 1) by (simpl IZR; lra).
  change (Z.to_nat 0) with 0%nat. change (Z.to_nat 1) with 1%nat.
  cbn [nth]. f_equal. f_equal; lra.
Qed.
Lemma skewed_extended : exists j, fit_extended into_u {| qv_low := 1 / 2; qv_median := 1; qv_high := 2 |} = Extended j.
Proof.
  unfold fit_extended, monotonic. cbn [qv_low qv_median qv_high into_u].
  rewrite (proj2 (Rltb_false 1 (1 / 2))) by lra. rewrite (proj2 (Rltb_false 2 1)) by lra. cbn [negb andb].
  unfold unconstrained_calc, skewness. rewrite (proj2 (Reqb_false_iff (1 / 2 + 2 - 2 * 1) 0)) by lra.
  cbv zeta. rewrite (proj2 (Rltb_iff 0 (1 / 2 + 2 - 2 * 1))) by lra. rewrite (proj2 (Rltb_iff (-1) 0)) by lra.
  rewrite (proj2 (Reqb_false_iff ((1 - 1 / 2) / (2 - 1 / 2)) 0)) by lra. eexists. reflexivity.
Qed.
Lemma skewed_fit : exists s t j, sorts_values value_sort /\
  fit_sinhlogistic_shape value_sort (fun _ p => p) two_trials (1 / 4) 0 1 Unbounded skewed = Shape s /\
  sample_triplet value_sort (1 / 4) skewed = Some t /\ fit_extended into_u t = Extended j /\ (forall f, not_worse two_trials f).
Proof.
  destruct skewed_extended as (j & J).
  assert (F : exists s, fit_sinhlogistic_shape value_sort (fun _ p => p) two_trials (1 / 4) 0 1 Unbounded skewed = Shape s).
  { unfold fit_sinhlogistic_shape. cbn [transformations]. rewrite skewed_triplet. cbn [construct q_params]. rewrite J.
    match goal with |- context [two_trials ?g] => set (f := g) end.
    assert (Fi : forall x, f x <> None).
    { intros x. unfold f. apply mean_distance_finite. intros p. unfold object_ppf. cbn [assign_shape construct q_phi q_alpha q_params q_back].
      rewrite J. discriminate. }
    unfold two_trials. pose proof (Fi 0) as A. pose proof (Fi 1) as B. destruct (f 0); [|congruence]. destruct (f 1); [|congruence].
    destruct (Rle_dec _ _); eexists; reflexivity. }
  destruct F as (s & F). exists s. eexists. exists j. split; [apply value_sorts|]. split; [exact F|]. split; [apply skewed_triplet|].
  split; [exact J|]. apply two_trials_fine.
Qed.

(** Quantiles of a logistic, an exponential and a geometric distribution. *)
Definition line_quantiles : list R := [1 / 4; 1 / 2; 3 / 4].
Definition line_values : list R := map (fun q => 1 + 2 * d_ppf logistic q) line_quantiles.
Lemma line_probabilities : probabilities line_quantiles /\ two_different line_quantiles.
Proof.
  split; [intros q [<-|[<-|[<-|[]]]]; lra|]. exists (1 / 4), (1 / 2). split; [left; reflexivity|]. split; [right; left; reflexivity|lra].
Qed.
Lemma line_increasing : increasing_with line_quantiles line_values.
Proof.
  intros i j I J L. unfold line_values. rewrite (nth_map_lt _ _ _ 0) by exact I. rewrite (nth_map_lt _ _ _ 0) by exact J.
  destruct line_probabilities as [P _].
  pose proof (ppf_increasing _ logistic_base (nth i line_quantiles 0) (nth j line_quantiles 0) (proj1 (P _ (nth_In _ _ I))) L (proj2 (P _ (nth_In _ _ J)))). nra.
Qed.
Lemma line_found : finds_closest (fun _ _ _ => (1, 2)) (gaussian_curve logistic) line_quantiles line_values.
Proof.
  intros _. apply on_closest. unfold on_curve, line_values. rewrite map_map. apply map_ext_in. intros q Q. cbn [fst snd].
  unfold gaussian_curve. apply gaussian_values; [lra|]. apply line_probabilities, Q.
Qed.
Lemma line_case : base_distribution logistic /\ probabilities line_quantiles /\ length line_values = length line_quantiles /\
  two_different line_quantiles /\ increasing_with line_quantiles line_values /\
  finds_closest (fun _ _ _ => (1, 2)) (gaussian_curve logistic) line_quantiles line_values.
Proof.
  split; [apply logistic_base|]. split; [apply line_probabilities|]. split; [apply map_length|]. split; [apply line_probabilities|].
  split; [apply line_increasing|apply line_found].
Qed.
Definition exponential (a : R) : dist := {| d_ppf := fun p => - ln (1 - p); d_cdf := fun x => 1 - exp (- x) |}.
Lemma exponential_case : let qs := [1 / 2; 3 / 4] in let vs := [2 * - ln (1 - 1 / 2); 2 * - ln (1 - 3 / 4)] in
  on_curve (gamma_curve exponential) 1 (1 / 2) qs vs /\ finds_closest (fun _ _ _ => (1, 1 / 2)) (gamma_curve exponential) qs vs.
Proof.
  intros qs vs.
  assert (E : on_curve (gamma_curve exponential) 1 (1 / 2) qs vs).
  { unfold on_curve, qs, vs. cbn [map]. unfold gamma_curve, gamma_dist, located.
    rewrite (proj2 (Rltb_iff 0 1)) by lra. rewrite (proj2 (Reqb_false_iff (1 / 2) 0)) by lra. cbn [negb andb].
    rewrite (proj2 (Rltb_iff 0 (1 / (1 / 2)))) by lra. cbn [z_ppf exponential d_ppf].
    rewrite (proj2 (Rltb_iff 0 (1 / 2))), (proj2 (Rltb_iff (1 / 2) 1)), (proj2 (Rltb_iff 0 (3 / 4))), (proj2 (Rltb_iff (3 / 4) 1)) by lra.
    cbn [andb]. replace (1 / (1 / 2)) with 2 by field. rewrite !Rplus_0_l. reflexivity. }
  split; [exact E|]. intros _. apply on_closest, E.
Qed.
Definition geometric (n p : R) : dist :=
  {| d_ppf := fun _ => 0; d_cdf := fun x => 1 - (1 - p) ^ S (Z.to_nat (Int_part x)) |}.
Lemma geometric_case : let qs := [1 / 2; 3 / 4] in let vs := [0; 1] in
  on_curve (nbinom_curve geometric) 1 2 vs qs /\ finds_closest (fun _ _ _ => (1, 2)) (nbinom_curve geometric) vs qs.
Proof.
  intros qs vs.
  assert (E : on_curve (nbinom_curve geometric) 1 2 vs qs).
  { unfold on_curve, qs, vs. cbn [map]. unfold nbinom_curve, nbinom_dist.
    rewrite (proj2 (Reqb_false_iff 2 1)), (proj2 (Reqb_false_iff 2 0)) by lra. cbn [orb]. unfold nbinom_n, nbinom_p. cbv zeta.
    rewrite (proj2 (Rltb_iff 0 (1 * 1 / (2 - 1)))) by lra. rewrite (proj2 (Rltb_iff 0 (1 / 2))) by lra.
    rewrite (proj2 (Rleb_iff (1 / 2) 1)) by lra. cbn [andb z_cdf geometric d_cdf].
    rewrite (int_part_is 0 0) by (simpl IZR; lra). rewrite (int_part_is 1 1) by (simpl IZR; lra).
    change (Z.to_nat 0) with 0%nat. change (Z.to_nat 1) with 1%nat.
    replace (1 - (1 - 1 / 2) ^ 1) with (1 / 2) by field. replace (1 - (1 - 1 / 2) ^ 2) with (3 / 4) by field. reflexivity. }
  split; [exact E|]. intros _. apply on_closest, E.
Qed.
(** A straight line is a cubic polynomial through its points. *)
Lemma straight_case : let qs := [1 / 5; 2 / 5; 3 / 5; 4 / 5] in
  passes_through (fun x => 3 * x) qs (map (fun q => 3 * q) qs) /\ cubic_on_unit (fun x => 3 * x) /\ (forall q, In q qs -> 0 <= q <= 1).
Proof.
  intros qs. split; [reflexivity|]. split; [exists 0, 3, 0, 0; intros; ring|]. intros q [<-|[<-|[<-|[<-|[]]]]]; lra.
Qed.
