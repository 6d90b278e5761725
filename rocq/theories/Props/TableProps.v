(** C125: interactions without effects of single columns, and prior expectations on top of
    another smoother. *)
From Coq Require Import ZArith List Bool Reals.
From Verif.Model Require Import Num LexBins Train BinSmoothers TableSmoothers.
From Verif.Spec Require Import LexSpec RegularizeSpec TableSpec.
From Verif.Proofs Require Import TableFacts TableExamples.
Import ListNotations.
Local Open Scope R_scope.

(** The values the inner smoother is fitted to belong to the bins of the group, have no
    effect of the second column, and differ from the values of the bins by effects of single
    columns only. Missing: an effect of the first column can be left (C46), and the inner
    smoother can bring one back, see below. *)
Theorem C125_no_second_effect_partial : forall n m u values, (0 < n)%nat -> (0 < m)%nat ->
  per_bin n m u -> positive_bins n m u -> per_bin n m values ->
  exists y, neutralized_values (two_columns n m) u values = Some y /\ per_bin n m y /\
    (forall j, (j < m)%nat -> second_effect n m y u j = 0) /\
    (exists a b, with_effects n m a b y values) /\
    forall s weights k, neutralised_2d s (two_columns n m) weights u values k = s (two_columns n m) weights u y k.
Proof.
  intros n m u values N M U P V. destruct (neutralised_facts n m N M u values U P V) as (y & E & L & Z & AB).
  exists y. split; [exact E|]. split; [exact L|]. split; [exact Z|]. split; [exact AB|].
  intros. unfold neutralised_2d. rewrite E. reflexivity.
Qed.
Print Assumptions C125_no_second_effect_partial.

(** Effects of the first column in the values of the bins have no influence on the
    predictions of the smoother, nor have effects of the second column if the uncertainties
    of the bins are independent. *)
Theorem C125_effects_ignored_partial : forall n m u values values' a b, (0 < n)%nat -> (0 < m)%nat ->
  per_bin n m u -> positive_bins n m u -> per_bin n m values -> per_bin n m values' ->
  with_effects n m a b values values' ->
  (forall j, (j < m)%nat -> b j = 0) \/ independent_bins n m u ->
  forall s weights k,
    neutralised_2d s (two_columns n m) weights u values' k = neutralised_2d s (two_columns n m) weights u values k.
Proof.
  intros n m u values values' a b N M U P V V' A C s weights k. unfold neutralised_2d.
  rewrite (effects_ignored n m N M u values values' a b U P V V' A C). reflexivity.
Qed.
Print Assumptions C125_effects_ignored_partial.

(** With other uncertainties an effect of the second column alone, which a feature of this
    column explains completely, leaves an interaction. *)
Theorem C125_second_effect_refuted : exists u values values' b y y',
  per_bin 2 2 u /\ positive_bins 2 2 u /\ per_bin 2 2 values /\ per_bin 2 2 values' /\
  with_effects 2 2 (fun _ => 0) b values values' /\ (forall j, 0 <= b j <= 100) /\
  neutralized_values (two_columns 2 2) u values = Some y /\ neutralized_values (two_columns 2 2) u values' = Some y' /\
  at_bins 2 2 y 0 0 = 0 /\ 18 < at_bins 2 2 y' 0 0.
Proof. exact second_effect_left. Qed.
Print Assumptions C125_second_effect_refuted.

(** The regularisation to the weighted mean as inner smoother gives values without any effect
    of single columns such an effect. *)
Theorem C125_inner_smoother_refuted : exists u values y, per_bin 2 2 u /\ positive_bins 2 2 u /\ per_bin 2 2 values /\
  (forall i, (i < 2)%nat -> first_effect 2 2 values u i = 0) /\ (forall j, (j < 2)%nat -> second_effect 2 2 values u j = 0) /\
  (forall weights k, (k < 4)%nat ->
     neutralised_2d (weighted_mean_bins None) (two_columns 2 2) weights u values k = Some (nth k y 0)) /\
  second_effect 2 2 y u 0 < 0.
Proof. exact smoothed_effect. Qed.
Print Assumptions C125_inner_smoother_refuted.

(** One column is refused, and so are three unless the third has a single bin, although the
    message of the error asks for two columns at least. *)
Theorem C125_one_column : forall n u values, (0 < n)%Z -> neutralized_values (arange_multi [n]) u values = None.
Proof. exact one_column. Qed.
Print Assumptions C125_one_column.
Theorem C125_three_columns_refuted : forall n m k u values, shape [n; m; k] -> (2 <= k)%Z ->
  Z.of_nat (length values) = size [n; m; k] -> neutralized_values (arange_multi [n; m; k]) u values = None.
Proof. exact three_columns. Qed.
Print Assumptions C125_three_columns_refuted.

(** The prior expectation replaces predictions of the inner smoother that do not differ
    significantly from it, and missing ones; the others move towards it. *)
Theorem C125_prior_expectation : forall prior threshold s centres weights u values k uk,
  nth_error u k = Some uk -> 0 < uk -> 0 <= threshold ->
  match s centres weights u values k with
  | Some v =>
      (Rabs (v - prior k) <= threshold * uk ->
         prior_expectation_meta prior threshold s centres weights u values k = Some (prior k)) /\
      (threshold * uk < Rabs (v - prior k) ->
         exists r, prior_expectation_meta prior threshold s centres weights u values k = Some r /\
           (r - prior k) ^ 2 = (v - prior k) ^ 2 - (threshold * uk) ^ 2 /\
           (prior k < v -> prior k < r <= v) /\ (v < prior k -> v <= r < prior k))
  | None => prior_expectation_meta prior threshold s centres weights u values k = Some (prior k)
  end.
Proof. exact meta_values. Qed.
Print Assumptions C125_prior_expectation.

Example c125_bins : per_bin 2 2 correlated /\ positive_bins 2 2 correlated /\ per_bin 2 2 neutral.
Proof. exact (conj (proj1 correlated_bins) (conj (proj2 correlated_bins) eq_refl)). Qed.
Example c125_effects : exists a b, with_effects 2 2 a b neutral [12; -2; 8; 1] /\
  per_bin 2 2 [12; -2; 8; 1] /\ independent_bins 2 2 [1; 2; 3; 6] /\ positive_bins 2 2 [1; 2; 3; 6] /\
  ~ (forall j, (j < 2)%nat -> b j = 0).
Proof. exact table_case. Qed.
Example c125_prior :
  prior_expectation_meta (fun _ => 1) 2 (cut_unseen bin_values) (two_columns 2 2) [1; 1; 0; 1] [1; 1; 1; 1] [5; 2; 7; 1] 2%nat = Some 1 /\
  prior_expectation_meta (fun _ => 1) 2 (cut_unseen bin_values) (two_columns 2 2) [1; 1; 0; 1] [1; 1; 1; 1] [5; 2; 7; 1] 1%nat = Some 1 /\
  exists r, prior_expectation_meta (fun _ => 1) 2 (cut_unseen bin_values) (two_columns 2 2) [1; 1; 0; 1] [1; 1; 1; 1] [5; 2; 7; 1] 0%nat = Some r /\ 4 < r < 5.
Proof. exact meta_case. Qed.
