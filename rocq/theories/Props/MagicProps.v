(** C120: numbers that are declared to stand for missing values. *)
From Coq Require Import ZArith NArith QArith List Bool.
From Verif.Model Require Import Num BinarySearch Flags Ecdf BinTransform.
From Verif.Spec Require Import BinningSpec MagicSpec.
From Verif.Proofs Require Import MagicFacts.
Import ListNotations.
Local Open Scope Q_scope.

(** Full property: in a column with HAS_MAGIC_INT_MISSING the numbers -9 and
    -999 are treated like NaN, so that writing NaN instead of them in the
    training data changes no bin of any value. Proved: columns of categories
    keep all their values apart, but every value moves up by the number of
    these codes below it, whose bins stay empty. *)
Theorem C120_categories_partial : forall prop n eps tol zw xs ys ys' i x,
  check_flags_consistency prop = FlagsOk -> is_continuous_set prop = false -> has_magic_missing_set prop = true -> (2 <= n)%Z ->
  positive_weights zw -> finite_or_nan zw -> 0 <= eps -> eps < 1 ->
  transform_column prop (fit_column prop n eps tol zw) xs = Some ys ->
  transform_column prop (fit_column prop n eps tol (magic_as_nan zw)) xs = Some ys' ->
  nth_error xs i = Some x -> regular prop x -> occurs x (map fst zw) ->
  exists b, nth_error ys' i = Some (Fin (inject_Z (Z.of_nat b))) /\
    nth_error ys i = Some (Fin (inject_Z (Z.of_nat (b + magic_below zw x)))).
Proof. exact magic_shifts. Qed.
Print Assumptions C120_categories_partial.

Example C120_case : positive_weights half_missing /\ finite_or_nan half_missing /\ regular 1042 (Fin (inject_Z 3)) /\
  occurs (Fin (inject_Z 3)) (map fst half_missing) /\ magic_below half_missing (Fin (inject_Z 3)) = 1%nat.
Proof. exact half_missing_good. Qed.

(** It fails: of eight rows, four with the value -999 and one each with 1, 2, 3
    and 4, a continuous column with two bins puts the latter all in one bin,
    where NaN instead of -999 gives two. *)
Theorem C120_like_nan_refuted :
  check_flags_consistency 1042 = FlagsOk /\ is_continuous_set 1042 = false /\ has_magic_missing_set 1042 = true /\
  transform_column 1042 (fit_column 1042 2 (1#1000000000) (1#10) half_missing) (map fst half_missing) = bins [-1; -1; -1; -1; 1; 2; 3; 4]%Z /\
  transform_column 1042 (fit_column 1042 2 (1#1000000000) (1#10) (magic_as_nan half_missing)) (map fst half_missing) = bins [-1; -1; -1; -1; 0; 1; 2; 3]%Z /\
  check_flags_consistency 1041 = FlagsOk /\ is_continuous_set 1041 = true /\ has_magic_missing_set 1041 = true /\
  transform_column 1041 (fit_column 1041 2 (1#1000000000) (1#10) half_missing) (map fst half_missing) = bins [-1; -1; -1; -1; 1; 1; 1; 1]%Z /\
  transform_column 1041 (fit_column 1041 2 (1#1000000000) (1#10) (magic_as_nan half_missing)) (map fst half_missing) = bins [-1; -1; -1; -1; 0; 0; 1; 1]%Z.
Proof. exact magic_counts. Qed.
Print Assumptions C120_like_nan_refuted.
