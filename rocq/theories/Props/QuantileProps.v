(** C37-C39, C47: quantile costs, quantiles, and factors of the loss-minimising modes. *)
From Coq Require Import ZArith List Bool Reals Permutation Sorted.
From Verif.Model Require Import Train Link Quantile.
From Verif.Spec Require Import QuantileSpec.
From Verif.Proofs Require Import QuantileFacts GenericFacts.
Import ListNotations.
Local Open Scope R_scope.

(** ** C37 *)
Theorem C37_nonnegative : forall p y w q, 0 <= q <= 1 -> (forall x, In x w -> 0 <= x) -> 0 < sumR w ->
  exists c, quantile_costs p y w q = Some c /\ 0 <= c.
Proof. exact costs_nonneg. Qed.
Print Assumptions C37_nonnegative.

Theorem C37_zero : forall p y w q, 0 < q < 1 -> y <> [] -> length p = length y -> length w = length y -> (forall x, In x w -> 0 < x) ->
  (quantile_costs p y w q = Some 0 <-> p = y).
Proof. exact costs_zero. Qed.
Print Assumptions C37_zero.

(** No constant prediction is cheaper than a weighted quantile. *)
Theorem C37_minimised : forall q rows v c, weighted_rows rows -> is_quantile q rows v ->
  exists a b, constant_costs q rows v = Some a /\ constant_costs q rows c = Some b /\ a <= b.
Proof. exact quantile_minimises. Qed.
Print Assumptions C37_minimised.
(** The cheapest constants are exactly the values that split the targets at the level,
    and the weighted quantiles are among them. *)
Theorem C37_optima : forall q rows v, weighted_rows rows -> (is_minimum (constant_costs q rows) v <-> splits q rows v).
Proof. exact constant_optimum. Qed.
Print Assumptions C37_optima.
Theorem C37_quantile_splits : forall q rows v, is_quantile q rows v -> splits q rows v.
Proof. exact quantile_splits. Qed.
Print Assumptions C37_quantile_splits.
Example C37_rows_exist : weighted_rows high_rows.
Proof. exact high_weighted. Qed.

(** ** C38 *)
(** Without ties the continuous quantile is the weighted quantile. Missing: ties, where
    the property fails, see below. *)
Theorem C38_no_ties_partial : forall sort q rows, sorts sort -> weighted_rows rows -> 0 < q <= 1 -> NoDup (map fst rows) ->
  exists v, continuous_quantile sort rows q = Some v /\ is_quantile q rows v.
Proof. exact continuous_distinct. Qed.
Print Assumptions C38_no_ties_partial.

(** With unit weights it is at most 2 above the weighted quantile. *)
Theorem C38_unit_weights_partial : forall sort q rows, sorts sort -> rows <> [] -> (forall r, In r rows -> snd r = 1) -> 0 < q <= 1 ->
  exists v c, is_quantile q rows v /\ continuous_quantile sort rows q = Some c /\ v <= c <= v + 2.
Proof. exact continuous_unit. Qed.
Print Assumptions C38_unit_weights_partial.

Theorem C38_above_refuted : exists rows q, forall sort, sorts sort -> weighted_rows rows /\ (forall r, In r rows -> fst r <= 1) /\
  continuous_quantile sort rows q = Some 2.
Proof. exact (ex_intro _ high_rows (ex_intro _ (2 / 3) continuous_above)). Qed.
Print Assumptions C38_above_refuted.
Theorem C38_below_refuted : exists rows q, forall sort, sorts sort -> weighted_rows rows /\ (forall r, In r rows -> 0 <= fst r) /\
  continuous_quantile sort rows q = Some (-1).
Proof. exact (ex_intro _ low_rows (ex_intro _ 1 continuous_below)). Qed.
Print Assumptions C38_below_refuted.

(** ** C39 *)
Theorem C39_quantile : forall sort q rows, sorts sort -> weighted_rows rows -> 0 < q <= 1 ->
  exists v, weighted_quantile sort q rows = Some v /\ is_quantile q rows v.
Proof. exact weighted_quantile_ok. Qed.
Print Assumptions C39_quantile.

Theorem C39_median : forall sort rows, weighted_median sort rows = weighted_quantile sort (1 / 2) rows.
Proof. exact median_half. Qed.
Print Assumptions C39_median.

(** A quantile lies in the range of the targets and grows with its level. *)
Theorem C39_range : forall rows q v, is_quantile q rows v -> exists lo hi, In lo (map fst rows) /\ In hi (map fst rows) /\
  (forall r, In r rows -> lo <= fst r <= hi) /\ lo <= v <= hi.
Proof. exact quantile_range. Qed.
Print Assumptions C39_range.
Theorem C39_monotone : forall rows q1 q2 v1 v2, weighted_rows rows -> q1 <= q2 ->
  is_quantile q1 rows v1 -> is_quantile q2 rows v2 -> v1 <= v2.
Proof. exact quantile_monotone. Qed.
Print Assumptions C39_monotone.

(** The binned version: one entry per bin, ascending, from the rows of that bin. *)
Theorem C39_bins : forall sort q bins rows,
  map fst (calc_weighted_quantile sort bins rows q) = group_keys bins /\
  StronglySorted Z.lt (group_keys bins) /\ forall k, In k (group_keys bins) <-> In k bins.
Proof. exact (fun sort q bins rows => conj (binned_keys sort q bins rows) (group_keys_ok bins)). Qed.
Print Assumptions C39_bins.
Theorem C39_binned : forall sort q bins rows k v, sorts sort -> 0 < q <= 1 -> weighted_rows (group_rows k bins rows) ->
  In (k, v) (calc_weighted_quantile sort bins rows q) -> exists x, v = Some x /\ is_quantile q (group_rows k bins rows) x.
Proof. exact binned_quantile. Qed.
Print Assumptions C39_binned.
Theorem C39_bin_rows : forall k bins rows,
  group_rows k bins rows = map snd (filter (fun p => Z.eqb (fst p) k) (combine bins rows)).
Proof. exact group_rows_filter. Qed.
Print Assumptions C39_bin_rows.
Example C39_sort_exists : sorts insertion_sort.
Proof. exact insertion_sorts. Qed.

(** ** C47 *)
(** If the empty bins are visited in ascending order, every bin gets the factor
    optimised for its rows. *)
Theorem C47_bins_partial : forall (row : Type) n (rows sorted : list (nat * row)) empty optimise,
  bin_sort sorted rows -> (forall b, In b (map fst rows) -> (b < n)%nat) ->
  empty_bins n rows empty -> StronglySorted lt empty ->
  length (raw_parameters optimise sorted empty) = n /\
  forall b, (b < n)%nat -> exists l, Permutation l (rows_of b rows) /\ nth_error (raw_parameters optimise sorted empty) b = Some (optimise l).
Proof. exact (fun row => parameters_ascending (row := row)). Qed.
Print Assumptions C47_bins_partial.

(** In another order of the set a bin with rows gets the factor of an empty bin. *)
Theorem C47_order_refuted : exists (n : nat) (rows sorted : list (nat * R)) (empty : list nat) (optimise : list R -> R),
  bin_sort sorted rows /\ (forall b, In b (map fst rows) -> (b < n)%nat) /\ empty_bins n rows empty /\
  exists b, (b < n)%nat /\ rows_of b rows <> [] /\
    nth_error (raw_parameters optimise sorted empty) b = Some (optimise []) /\ optimise [] <> optimise (rows_of b rows).
Proof. exact wrong_order. Qed.
Print Assumptions C47_order_refuted.

(** Empty bins keep the neutral factor of the quantile modes, 0 in link space. *)
Theorem C47_empty : forall minimize model neutral, keeps_start minimize -> forall q,
  optimization minimize model (fun p y w => quantile_costs p y w q) neutral [] = neutral.
Proof. exact empty_neutral. Qed.
Print Assumptions C47_empty.
Theorem C47_neutral : log_parameter (unlink_func Log 0) (unlink_func Log 0) = Some 0 /\
  log_parameter (unlink_func Identity 0) (unlink_func Identity 0) = Some 0.
Proof. exact log_neutral. Qed.
Print Assumptions C47_neutral.
(** In the classification mode the neutral start becomes another factor. *)
Theorem C47_classifier_refuted : exists p, log_parameter (unlink_func Logit 0) (unlink_func Logit 0) = Some p /\ p <> 0.
Proof. exact log_classifier. Qed.
Print Assumptions C47_classifier_refuted.

(** Optimal multiplicative factors are not negative, and their logarithm is defined. *)
Theorem C47_nonnegative : forall q rows p, 0 < q < 1 -> rows <> [] ->
  (forall s, In s rows -> 0 <= s_y s /\ 0 < s_pred s /\ 0 < s_w s) ->
  is_minimum (objective model_multiplicative (fun p y w => quantile_costs p y w q) rows) p -> 0 <= p.
Proof. exact factor_nonneg. Qed.
Print Assumptions C47_nonnegative.
(** The optimal factors and summands of a bin: those that split the ratios or the
    residuals of its rows at the level. *)
Theorem C47_optimal_factor : forall q rows p, (forall s, In s rows -> 0 <= s_w s /\ 0 < s_pred s) -> 0 < sumR (map s_w rows) ->
  (is_minimum (objective model_multiplicative (fun p y w => quantile_costs p y w q) rows) p <-> splits q (ratios rows) p).
Proof. exact multiplicative_optimum. Qed.
Print Assumptions C47_optimal_factor.
Theorem C47_optimal_summand : forall q rows p, (forall s, In s rows -> 0 <= s_w s) -> 0 < sumR (map s_w rows) ->
  (is_minimum (objective model_additive (fun p y w => quantile_costs p y w q) rows) p <-> splits q (residuals rows) p).
Proof. exact additive_optimum. Qed.
Print Assumptions C47_optimal_summand.
Theorem C47_logarithm : forall p, 0 <= p -> log_parameter (unlink_func Log 0) p = Some (ln (Rmax p (1 / 100000))).
Proof. exact log_defined. Qed.
Print Assumptions C47_logarithm.
Theorem C47_additive : forall p, log_parameter (unlink_func Identity 0) p = Some p.
Proof. exact log_additive. Qed.
Print Assumptions C47_additive.
Example C47_case : bin_sort [(0%nat, 1); (2%nat, 5); (2%nat, 4)] [(2%nat, 5); (0%nat, 1); (2%nat, 4)] /\
  empty_bins 4 [(2%nat, 5); (0%nat, 1); (2%nat, 4)] [1%nat; 3%nat] /\ StronglySorted lt [1%nat; 3%nat].
Proof. exact ex_bins. Qed.
Example C47_start_exists : keeps_start (fun _ x0 => x0).
Proof. exact ex_keeps_start. Qed.
Example C47_minimum_exists : is_minimum (objective model_multiplicative (fun p y w => quantile_costs p y w (1 / 2)) [{| s_y := 2; s_pred := 1; s_w := 1 |}]) 2.
Proof. exact ex_minimum. Qed.
