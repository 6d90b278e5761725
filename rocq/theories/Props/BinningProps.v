(** C02-C11, C49: binning of feature columns. *)
From Coq Require Import ZArith NArith QArith List Bool Permutation Lia Lqa.
From Verif.Model Require Import Num BinarySearch Flags Ecdf BinTransform.
From Verif.Spec Require Import SearchSpec FlagSpec BinningSpec.
From Verif.Proofs Require Import GridFacts EcdfFacts FitFacts TransformFacts InterpFacts EquivFacts FitUser NarrowFacts BinningExamples.
Import ListNotations.
Local Open Scope Q_scope.

(** ** C02 *)
Theorem C02_bin_numbers_in_range : forall prop n eps tol zw xs,
  check_flags_consistency prop = FlagsOk -> (2 <= n)%Z ->
  usable (fit_column prop n eps tol zw) ->
  exists ys, transform_column prop (fit_column prop n eps tol zw) xs = Some ys /\
    length ys = length xs /\
    forall y, In y ys -> is_missing_bin y \/
       exists b, (0 <= b < n_learned (fit_column prop n eps tol zw))%Z /\ is_bin y b.
Proof. exact bins_in_range. Qed.
Print Assumptions C02_bin_numbers_in_range.

(** A continuous and an ordered column, with missing, repeated and infinite values. *)
Example c02_continuous : usable (fit_column 1 3 0 (1#10) ex_samples) /\
  transform_column 1 (fit_column 1 3 0 (1#10) ex_samples) [NaN; Fin (-5); Fin 2; Fin 3; Fin 40; PInf] =
  Some (map (fun b => Fin (inject_Z b)) [-1; 0; 0; 1; 2; -1]%Z).
Proof. exact ex_c02_continuous. Qed.
Example c02_discrete : usable (fit_column 2 3 0 (1#10) ex_samples) /\
  transform_column 2 (fit_column 2 3 0 (1#10) ex_samples) [NaN; Fin (-5); Fin 2; Fin 3; Fin 40; PInf] =
  Some (map (fun b => Fin (inject_Z b)) [-1; -1; 1; 2; -1; -1]%Z).
Proof. exact ex_c02_discrete. Qed.

(** ** C03 *)
Theorem C03_continuous_monotone : forall prop n eps tol zw e bb cc xs ys i j x x' b b',
  check_flags_consistency prop = FlagsOk -> is_continuous_set prop = true -> (2 <= n)%Z ->
  fit_column prop n eps tol zw = Fitted e bb cc ->
  transform_column prop (Fitted e bb cc) xs = Some ys ->
  nth_error xs i = Some x -> nth_error xs j = Some x' ->
  regular prop x -> regular prop x' -> fle x x' = true ->
  nth_error ys i = Some (Fin (inject_Z b)) -> nth_error ys j = Some (Fin (inject_Z b')) ->
  (b <= b')%Z.
Proof. exact continuous_monotone. Qed.
Print Assumptions C03_continuous_monotone.

(** The bin is the first one whose right boundary is >= x - epsilon; the last
    bin if there is none. *)
Theorem C03_first_boundary_not_below : forall prop n eps tol zw e bb cc xs ys i x,
  check_flags_consistency prop = FlagsOk -> is_continuous_set prop = true -> (2 <= n)%Z -> 0 <= tol ->
  fit_column prop n eps tol zw = Fitted e bb cc ->
  transform_column prop (Fitted e bb cc) xs = Some ys ->
  nth_error xs i = Some x -> regular prop x ->
  exists k b, nth_error ys i = Some (Fin (inject_Z b)) /\
    first_ge (tl bb) (fsub x e) 0 (Z.of_nat (length (tl bb))) k /\
    b = Z.min k (Z.of_nat (length (tl bb)) - 1) /\
    (0 <= b < Z.of_nat (length (tl bb)))%Z.
Proof. exact continuous_value. Qed.
Print Assumptions C03_first_boundary_not_below.

Theorem C03_outside_values_in_end_bins : forall prop n eps tol zw e bb cc xs ys i x,
  check_flags_consistency prop = FlagsOk -> is_continuous_set prop = true -> (2 <= n)%Z -> 0 <= tol ->
  fit_column prop n eps tol zw = Fitted e bb cc ->
  transform_column prop (Fitted e bb cc) xs = Some ys ->
  nth_error xs i = Some x -> regular prop x ->
  ((forall v, In v (tl bb) -> fle (fsub x e) v = true) -> nth_error ys i = Some (Fin (inject_Z 0))) /\
  ((forall v, In v (tl bb) -> flt v (fsub x e) = true) ->
     nth_error ys i = Some (Fin (inject_Z (n_learned (Fitted e bb cc) - 1)))).
Proof. exact continuous_ends. Qed.
Print Assumptions C03_outside_values_in_end_bins.

(** The example of C02 is a fitted continuous column with three bins. *)
Example c03_fitted : exists e bb cc, fit_column 1 3 0 (1#10) ex_samples = Fitted e bb cc /\ length bb = 4%nat /\
  check_flags_consistency 1 = FlagsOk /\ is_continuous_set 1 = true /\ regular 1 (Fin 2).
Proof. exact ex_c03. Qed.

(** ** C04 *)
Theorem C04_training_value_gets_its_rank_partial : forall prop n eps tol zw e bb cc xs ys i x,
  check_flags_consistency prop = FlagsOk -> is_continuous_set prop = false -> (2 <= n)%Z ->
  positive_weights zw -> finite_or_nan zw -> 0 <= eps -> eps < 1 ->
  fit_column prop n eps tol zw = Fitted e bb cc ->
  transform_column prop (Fitted e bb cc) xs = Some ys ->
  nth_error xs i = Some x -> regular prop x -> occurs x (map fst zw) ->
  exists r v, nth_error (tl bb) r = Some v /\ feq v x = true /\
    nth_error ys i = Some (Fin (inject_Z (Z.of_nat r))).
Proof. exact discrete_training_value. Qed.
Print Assumptions C04_training_value_gets_its_rank_partial.

Theorem C04_no_shared_bins_partial : forall prop n eps tol zw e bb cc xs ys i j x y b,
  check_flags_consistency prop = FlagsOk -> is_continuous_set prop = false -> (2 <= n)%Z ->
  positive_weights zw -> finite_or_nan zw -> 0 <= eps -> eps < 1 ->
  fit_column prop n eps tol zw = Fitted e bb cc ->
  transform_column prop (Fitted e bb cc) xs = Some ys ->
  nth_error xs i = Some x -> regular prop x -> occurs x (map fst zw) ->
  nth_error xs j = Some y -> regular prop y -> occurs y (map fst zw) ->
  nth_error ys i = Some b -> nth_error ys j = Some b -> feq x y = true.
Proof. exact discrete_injective. Qed.
Print Assumptions C04_no_shared_bins_partial.

(** The fit succeeds and its boundaries are the distinct training values in
    increasing order, so the position of a value is its rank. *)
Theorem C04_boundaries_are_training_values : forall prop n eps tol zw,
  check_flags_consistency prop = FlagsOk -> is_continuous_set prop = false -> (2 <= n)%Z ->
  positive_weights zw -> (exists x w, In (x, w) zw /\ x <> NaN) ->
  exists e bb cc, fit_column prop n eps tol zw = Fitted e bb cc /\
    increasing (tl bb) /\ (forall v, occurs v (tl bb) <-> occurs v (map fst zw)).
Proof. exact discrete_boundaries. Qed.
Print Assumptions C04_boundaries_are_training_values.

Theorem C04_other_values_missing : forall prop n eps tol zw e bb cc xs ys i x b,
  check_flags_consistency prop = FlagsOk -> is_continuous_set prop = false -> (2 <= n)%Z ->
  fit_column prop n eps tol zw = Fitted e bb cc ->
  transform_column prop (Fitted e bb cc) xs = Some ys ->
  nth_error xs i = Some x -> nth_error ys i = Some (Fin (inject_Z b)) -> b <> (-1)%Z ->
  exists v, elem (tl bb) b v /\ check_equal v x e = true /\ occurs v (map fst zw).
Proof. exact discrete_found_close. Qed.
Print Assumptions C04_other_values_missing.

(** With an infinite training value the stored epsilon is infinite and another
    training value is mapped to the missing bin. *)
Theorem C04_infinite_training_value_refuted : exists zw x,
  positive_weights zw /\ occurs x (map fst zw) /\ regular 2 x /\
  transform_column 2 (fit_column 2 100 (1#1000000000) (1#10) zw) [x] = Some [Fin (inject_Z (-1))].
Proof. exact infinite_training_value. Qed.
Print Assumptions C04_infinite_training_value_refuted.

Example c04_hypotheses : positive_weights ex_samples /\ finite_or_nan ex_samples /\
  check_flags_consistency 2 = FlagsOk /\ is_continuous_set 2 = false /\
  regular 2 (Fin 3) /\ occurs (Fin 3) (map fst ex_samples).
Proof. exact ex_c04. Qed.

(** ** C05 *)
Theorem C05_missing_values_to_missing_bin : forall prop n eps tol zw xs ys i x,
  check_flags_consistency prop = FlagsOk -> (2 <= n)%Z ->
  transform_column prop (fit_column prop n eps tol zw) xs = Some ys ->
  nth_error xs i = Some x ->
  isfinite x = false \/ (has_magic_missing_set prop = true /\ magic x) ->
  exists y, nth_error ys i = Some y /\ is_missing_bin y.
Proof. exact missing_to_missing. Qed.
Print Assumptions C05_missing_values_to_missing_bin.

(** In continuous columns nothing else is mapped to the missing bin; without
    the magic flag -9 and -999 get ordinary bins. In discrete columns see
    [C04_training_value_gets_its_rank_partial]. *)
Theorem C05_continuous_only_missing_values : forall prop n eps tol zw e bb cc xs ys i x,
  check_flags_consistency prop = FlagsOk -> is_continuous_set prop = true -> (2 <= n)%Z -> 0 <= tol ->
  fit_column prop n eps tol zw = Fitted e bb cc ->
  transform_column prop (Fitted e bb cc) xs = Some ys ->
  nth_error xs i = Some x ->
  (nth_error ys i = Some (Fin (inject_Z (-1))) <->
   isfinite x = false \/ (has_magic_missing_set prop = true /\ magic x)).
Proof. exact continuous_missing_iff. Qed.
Print Assumptions C05_continuous_only_missing_values.

Theorem C05_column_without_values : forall prop n eps tol zw xs,
  (forall x w, In (x, w) zw -> x = NaN \/ w == 0) ->
  transform_column prop (fit_column prop n eps tol zw) xs = Some (map (fun _ => Fin (inject_Z (-1))) xs).
Proof. exact no_usable_all_missing. Qed.
Print Assumptions C05_column_without_values.

(** IS_CONTINUOUS with and without HAS_MAGIC_INT_MISSING. *)
Example c05_magic :
  transform_column 1041 (fit_column 1041 3 0 (1#10) ex_samples) [Fin (inject_Z (-9)); Fin (inject_Z (-999)); Fin 2] =
    Some (map (fun b => Fin (inject_Z b)) [-1; -1; 0]%Z) /\
  transform_column 1 (fit_column 1 3 0 (1#10) ex_samples) [Fin (inject_Z (-9)); Fin (inject_Z (-999)); Fin 2] =
    Some (map (fun b => Fin (inject_Z b)) [0; 0; 0]%Z).
Proof. exact ex_c05. Qed.

(** ** C06 *)
Theorem C06_adaptive_bins : forall zs cs n eps tol,
  distribution zs cs -> (2 <= n)%Z -> 0 <= tol < 1 ->
  0 <= eps -> eps < (1 - tol) / inject_Z n ->
  exists bb cc, reduce_cdf zs cs n eps tol = ReduceOk bb cc /\
    valid_binning zs cs n ((1 - tol) / inject_Z n - eps) bb cc.
Proof. exact adaptive_bins. Qed.
Print Assumptions C06_adaptive_bins.

(** From the samples on: the binning learned by the fit of a column. *)
Theorem C06_fitted_column : forall prop n eps tol zw,
  check_flags_consistency prop = FlagsOk -> is_continuous_set prop = true ->
  positive_weights zw -> (exists x w, In (x, w) zw /\ x <> NaN) ->
  (2 <= n)%Z -> 0 <= tol < 1 -> 0 <= eps -> eps < (1 - tol) / inject_Z n ->
  exists e bb cc zs cs,
    fit_column prop n eps tol zw = Fitted e bb cc /\ is_ecdf zw zs cs /\
    valid_binning zs cs n ((1 - tol) / inject_Z n - eps) bb cc.
Proof. exact fit_adaptive. Qed.
Print Assumptions C06_fitted_column.

Theorem C06_too_few_bins_rejected : forall zs cs n eps tol,
  (n < 2)%Z -> reduce_cdf zs cs n eps tol = RaiseNBins.
Proof. exact reduce_rejects. Qed.
Print Assumptions C06_too_few_bins_rejected.

Example c06_distribution : distribution [Fin 1; Fin 2; Fin 5; PInf] [1#8; 1#2; 7#8; 1].
Proof. exact ex_distribution. Qed.
Example c06_reduced : reduce_cdf [Fin 1; Fin 2; Fin 5; PInf] [1#8; 1#2; 7#8; 1] 2 0 (1#10) =
  ReduceOk [Fin 1; Fin 2; PInf] [0; 1#2; 1].
Proof. reflexivity. Qed.

(** ** C07 *)
Theorem C07_last_boundary_is_maximum : forall zs cs n tol,
  distribution zs cs -> (2 <= n)%Z -> 0 <= tol < 1 ->
  exists bb cc, reduce_cdf zs cs n 0 tol = ReduceOk bb cc /\
    nth_error bb (length bb - 1) = nth_error zs (length zs - 1) /\
    exists c, nth_error cc (length cc - 1) = Some c /\ c == 1.
Proof. exact last_is_maximum. Qed.
Print Assumptions C07_last_boundary_is_maximum.

(** Only for epsilon * n_bins < (1 - tolerance) / n_bins. *)
Theorem C07_remaining_probability_partial : forall zs cs n eps tol,
  distribution zs cs -> (2 <= n)%Z -> 0 <= tol < 1 ->
  0 <= eps -> eps * inject_Z n < (1 - tol) / inject_Z n ->
  exists bb cc, reduce_cdf zs cs n eps tol = ReduceOk bb cc /\
    forall c, nth_error cc (length cc - 1) = Some c -> 1 - c <= inject_Z n * eps.
Proof. exact remaining_probability. Qed.
Print Assumptions C07_remaining_probability_partial.

Theorem C07_remaining_probability_refuted : exists zs cs n eps tol bb cc c,
  distribution zs cs /\ (2 <= n)%Z /\ 0 <= tol < 1 /\ 0 <= eps /\ eps < (1 - tol) / inject_Z n /\
  reduce_cdf zs cs n eps tol = ReduceOk bb cc /\ nth_error cc (length cc - 1) = Some c /\
  inject_Z n * eps < 1 - c.
Proof. exact large_epsilon. Qed.
Print Assumptions C07_remaining_probability_refuted.

(** ** C51 *)
(** Each boundary is the first value reaching the probability its bin aims at;
    only the last one may be the maximum instead, when the rest behind that value
    is too small for a bin of its own. *)
Theorem C51_boundaries_placed : forall zs cs n eps tol,
  distribution zs cs -> (2 <= n)%Z -> 0 <= tol < 1 ->
  0 <= eps -> eps < (1 - tol) / inject_Z n ->
  exists bb cc, reduce_cdf zs cs n eps tol = ReduceOk bb cc /\
    forall i c b, nth_error cc i = Some c -> nth_error bb (S i) = Some b ->
    exists t k ck, aim n tol c t /\ first_reaching cs (t - eps) k ck /\
      (nth_error zs k = Some b \/
       (S i = length bb - 1)%nat /\ Some b = nth_error zs (length zs - 1) /\
       exists t', aim n tol ck t' /\ 1 + tol / inject_Z n < t').
Proof. exact boundaries_placed. Qed.
Print Assumptions C51_boundaries_placed.

(** So a bin other than the last exceeds the share 1/n by at most the
    probability of one value. *)
Theorem C51_bins_not_coarse : forall zs cs n eps tol d,
  distribution zs cs -> (2 <= n)%Z -> 0 <= tol < 1 ->
  0 <= eps -> eps < (1 - tol) / inject_Z n ->
  (forall c, nth_error cs 0 = Some c -> c <= d) ->
  (forall k c c', nth_error cs k = Some c -> nth_error cs (S k) = Some c' -> c' - c <= d) ->
  exists bb cc, reduce_cdf zs cs n eps tol = ReduceOk bb cc /\
    forall i c c', (S i < length cc - 1)%nat -> nth_error cc i = Some c -> nth_error cc (S i) = Some c' ->
    c' - c <= 1 / inject_Z n - eps + d.
Proof. exact bins_not_coarse. Qed.
Print Assumptions C51_bins_not_coarse.

Example c51_aim : exists t, aim 2 (1#10) 0 t /\ first_reaching [1#8; 1#2; 7#8; 1] t 1 (1#2).
Proof. exact ex_placed. Qed.

(** ** C08 *)
Theorem C08_zero_weights_ignored_partial : forall prop n eps tol zw xs,
  (forall x w, In (x, w) zw -> 0 <= w) ->
  (forall x w, In (x, w) zw -> w == 0 -> x <> NaN -> occurs x (map fst (without_zero zw))) ->
  transform_column prop (fit_column prop n eps tol zw) xs =
  transform_column prop (fit_column prop n eps tol (without_zero zw)) xs.
Proof. exact zero_weights_ignored. Qed.
Print Assumptions C08_zero_weights_ignored_partial.

(** A value that occurs only with weight zero makes the fit of a discrete
    column raise, and shifts the boundaries of a continuous one. *)
Theorem C08_discrete_fit_raises_refuted : exists zw,
  (forall x w, In (x, w) zw -> 0 <= w) /\
  fit_column 2 100 0 (1#10) zw = RaiseBroadcast /\
  usable (fit_column 2 100 0 (1#10) (without_zero zw)).
Proof. exact zero_weight_discrete. Qed.
Print Assumptions C08_discrete_fit_raises_refuted.

Theorem C08_continuous_boundaries_refuted : exists zw x,
  (forall y w, In (y, w) zw -> 0 <= w) /\
  transform_column 1 (fit_column 1 2 0 (1#10) zw) [x] <>
  transform_column 1 (fit_column 1 2 0 (1#10) (without_zero zw)) [x].
Proof. exact zero_weight_continuous. Qed.
Print Assumptions C08_continuous_boundaries_refuted.

Example c08_hypotheses :
  let zw := [(Fin 1, 1); (Fin 2, 0); (Fin 2, 3); (NaN, 0); (Fin 4, 1)] in
  (forall x w, In (x, w) zw -> 0 <= w) /\
  (forall x w, In (x, w) zw -> w == 0 -> x <> NaN -> occurs x (map fst (without_zero zw))).
Proof. exact ex_c08. Qed.

(** ** C09 *)
Theorem C09_ecdf_values : forall zw zs cs tot nn,
  positive_weights zw -> calculate_cdf (map fst zw) (map snd zw) = CdfOk zs cs tot nn ->
  is_ecdf zw zs cs /\ tot == weight_total zw /\ nn = length (filter isnan (map fst zw)).
Proof. exact calculate_cdf_spec. Qed.
Print Assumptions C09_ecdf_values.

Theorem C09_never_fails : forall zw : list sample,
  exists zs cs tot nn, calculate_cdf (map fst zw) (map snd zw) = CdfOk zs cs tot nn.
Proof. exact calculate_cdf_total. Qed.
Print Assumptions C09_never_fails.

Theorem C09_strictly_increasing_to_one : forall zw zs cs,
  positive_weights zw -> is_ecdf zw zs cs ->
  increasingQ cs /\
  forall z c, nth_error zs (length zs - 1) = Some z -> nth_error cs (length zs - 1) = Some c -> c == 1.
Proof. exact ecdf_shape. Qed.
Print Assumptions C09_strictly_increasing_to_one.

Theorem C09_order_of_samples_irrelevant : forall zw zw' zs cs tot nn zs' cs' tot' nn',
  positive_weights zw -> Permutation zw zw' ->
  calculate_cdf (map fst zw) (map snd zw) = CdfOk zs cs tot nn ->
  calculate_cdf (map fst zw') (map snd zw') = CdfOk zs' cs' tot' nn' ->
  Forall2 (fun a b => feq a b = true) zs zs' /\ Forall2 Qeq cs cs' /\ tot == tot' /\ nn = nn'.
Proof. exact calculate_cdf_perm. Qed.
Print Assumptions C09_order_of_samples_irrelevant.

(** Consequently the binning of a column does not depend on the row order. *)
Theorem C09_transform_independent_of_row_order : forall prop n eps tol zw zw' xs,
  positive_weights zw -> Permutation zw zw' ->
  transform_column prop (fit_column prop n eps tol zw) xs =
  transform_column prop (fit_column prop n eps tol zw') xs.
Proof. exact fit_permutation. Qed.
Print Assumptions C09_transform_independent_of_row_order.

Example c09_example :
  calculate_cdf [Fin 3; NaN; Fin 1; Fin 3; PInf] [1; 5; 2; 3; 2] =
  CdfOk [Fin 1; Fin 3; PInf] [2#8; 6#8; 8#8] 8 1.
Proof. exact ex_c09. Qed.

(** ** C10 *)
Theorem C10_quantile_transform : forall prop n eps tol zw,
  check_flags_consistency prop = FlagsOk -> is_continuous_set prop = true ->
  positive_weights zw -> finite_or_nan zw -> (exists x w, In (x, w) zw /\ x <> NaN) ->
  (2 <= n)%Z -> 0 <= tol < 1 -> 0 <= eps -> eps < (1 - tol) / inject_Z n ->
  exists e bb cc,
    fit_column prop n eps tol zw = Fitted (Fin e) (map Fin bb) cc /\
    forall xs, exists ys, ecdf_transform_column prop e bb cc xs = Some ys /\ length ys = length xs /\
      (* NaN exactly for non-finite values *)
      (forall i x, nth_error xs i = Some x -> (nth_error ys i = Some None <-> isfinite x = false)) /\
      (* between 0 and 1 *)
      (forall i p, nth_error ys i = Some (Some p) -> 0 <= p <= 1) /\
      (* non-decreasing *)
      (forall i j x y p q, nth_error xs i = Some (Fin x) -> nth_error xs j = Some (Fin y) -> x <= y ->
         nth_error ys i = Some (Some p) -> nth_error ys j = Some (Some q) -> p <= q) /\
      (* exact at boundaries *)
      (forall i k b c, nth_error xs i = Some (Fin b) -> nth_error bb k = Some b -> nth_error cc k = Some c ->
         (k = 0%nat -> forall next, nth_error bb 1 = Some next -> b < next) ->
         nth_error ys i = Some (Some c)) /\
      (* outside the range *)
      (forall i x, nth_error xs i = Some (Fin x) -> (forall b, In b bb -> x + e < b) ->
         nth_error ys i = Some (Some 0)) /\
      (forall i x c, nth_error xs i = Some (Fin x) -> (forall b, In b bb -> b <= x) ->
         nth_error cc (length cc - 1) = Some c -> nth_error ys i = Some (Some c)).
Proof. exact quantile_transform. Qed.
Print Assumptions C10_quantile_transform.

Example c10_hypotheses : positive_weights ex_samples /\ finite_or_nan ex_samples /\
  (exists x w, In (x, w) ex_samples /\ x <> NaN) /\ (1#100) < (1 - (1#10)) / inject_Z 3.
Proof. exact ex_c10. Qed.
Example c10_example : ecdf_transform_column 1 (1#100) [0; 2; 6] [0; 1#4; 1] [Fin (-1); Fin 2; Fin 3; Fin 7; NaN] =
  Some [Some 0; Some (1#4); Some ((1#4) + (3 - 2) / (6 - 2) * (1 - (1#4))); Some 1; None].
Proof. reflexivity. Qed.

(** ** C11 *)
Theorem C11_narrowing_lossless : forall l : list Z,
  (forall x, In x l -> - 2 ^ 63 <= x < 2 ^ 63)%Z -> as_int_array_of_minimum_dtype l = l.
Proof. exact narrowing_lossless. Qed.
Print Assumptions C11_narrowing_lossless.
Example c11_example : as_int_array_of_minimum_dtype [-1; 0; 127; 128]%Z = [-1; 0; 127; 128]%Z /\
  minimum_dtype_bits [-1; 0; 127; 128]%Z = 16%Z /\ wrap 8 128 = (-128)%Z.
Proof. repeat split; reflexivity. Qed.

(** ** C49 *)
Theorem C49_nan_training_values_ignored_partial : forall prop n eps tol zw,
  fit_column prop n eps tol (filter (fun p : sample => negb (isnan (fst p))) zw) =
  fit_column prop n eps tol zw.
Proof. exact nan_ignored. Qed.
Print Assumptions C49_nan_training_values_ignored_partial.

Theorem C49_infinite_training_values_refuted : exists zw x,
  positive_weights zw /\
  transform_column 2 (fit_column 2 100 (1#1000000000) (1#10) zw) [x] <>
  transform_column 2 (fit_column 2 100 (1#1000000000) (1#10) (filter (fun p => isfinite (fst p)) zw)) [x].
Proof. exact infinite_not_ignored. Qed.
Print Assumptions C49_infinite_training_values_refuted.
