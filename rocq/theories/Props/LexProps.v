(** C12-C14: bin numbers of feature groups and the unseen-event mask. *)
From Coq Require Import ZArith QArith List Bool.
From Verif.Model Require Import Num LexBins.
From Verif.Spec Require Import LexSpec.
From Verif.Proofs Require Import LexFacts LexExamples.
Import ListNotations.
Local Open Scope Z_scope.

(** ** C12 *)
Theorem C12_number_in_range : forall M n rows i row t,
  nth_error rows i = Some row -> holds_tuple row t -> valid_tuple n t ->
  exists k, nth_error (fst (lexicographic_binnos M rows (Some n))) i = Some k /\ 0 <= k < size n.
Proof. exact lex_in_range. Qed.
Print Assumptions C12_number_in_range.

Theorem C12_lexicographic_order_injective : forall M n rows i j row row' t t' k k',
  nth_error rows i = Some row -> holds_tuple row t -> valid_tuple n t ->
  nth_error rows j = Some row' -> holds_tuple row' t' -> valid_tuple n t' ->
  nth_error (fst (lexicographic_binnos M rows (Some n))) i = Some k ->
  nth_error (fst (lexicographic_binnos M rows (Some n))) j = Some k' ->
  (lex_lt t t' <-> k < k') /\ (k = k' -> t = t').
Proof. exact lex_order. Qed.
Print Assumptions C12_lexicographic_order_injective.

(** The rows of [arange_multi] are as many as there are tuples and row k is the
    tuple with number k; in particular every number is hit. *)
Theorem C12_arange_multi_enumerates : forall n, shape n ->
  Z.of_nat (length (arange_multi n)) = size n /\
  forall k t, nth_error (arange_multi n) k = Some t ->
    valid_tuple n t /\
    forall M rows i row, nth_error rows i = Some row -> holds_tuple row t ->
      nth_error (fst (lexicographic_binnos M rows (Some n))) i = Some (Z.of_nat k).
Proof. exact arange_multi_numbers. Qed.
Print Assumptions C12_arange_multi_enumerates.

(** Without given numbers of bins, the shape taken from the data contains every
    row without missing, infinite or negative entries. *)
Theorem C12_shape_from_data : forall M rows row,
  (forall r, In r rows -> length r = M) -> In row rows -> ~ missing_entry row ->
  ~ invalid_row (snd (lexicographic_binnos M rows None)) row.
Proof. exact shape_from_data. Qed.
Print Assumptions C12_shape_from_data.

Example c12_shape : shape [2; 3] /\ arange_multi [2; 3] = [[0;0];[0;1];[0;2];[1;0];[1;1];[1;2]] /\
  holds_tuple [Fin 1; Fin 2] [1; 2] /\ valid_tuple [2; 3] [1; 2] /\
  lexicographic_binnos 2 [[Fin 1; Fin 2]; [Fin 0; NaN]; [Fin 1; Fin 0]] None = ([5; 6; 3], [2; 3]).
Proof. exact ex_c12. Qed.

(** ** C13 *)
(** What holds: in a batch containing at least one valid row. Missing: batches
    without any valid row, see the refutation. *)
Theorem C13_invalid_row_to_missing_bin_partial : forall M n rows i row,
  (exists r, In r rows /\ length r = length n /\ ~ invalid_row n r) ->
  nth_error rows i = Some row -> length row = length n -> invalid_row n row ->
  nth_error (fst (lexicographic_binnos M rows (Some n))) i = Some (size n).
Proof. exact invalid_to_missing. Qed.
Print Assumptions C13_invalid_row_to_missing_bin_partial.

Theorem C13_valid_row_batch_independent : forall M M' n rows rows' i j row,
  nth_error rows i = Some row -> nth_error rows' j = Some row -> length row = length n -> ~ invalid_row n row ->
  nth_error (fst (lexicographic_binnos M rows (Some n))) i =
  nth_error (fst (lexicographic_binnos M' rows' (Some n))) j.
Proof. exact valid_rows_batch_independent. Qed.
Print Assumptions C13_valid_row_batch_independent.

(** A batch consisting of one invalid row gets the number of a regular bin. *)
Theorem C13_invalid_row_to_missing_bin_refuted : exists n rows row,
  shape n /\ nth_error rows 0 = Some row /\ length row = length n /\ invalid_row n row /\
  nth_error (fst (lexicographic_binnos 2 rows (Some n))) 0 <> Some (size n).
Proof. exact invalid_refuted. Qed.
Print Assumptions C13_invalid_row_to_missing_bin_refuted.

Example c13_case : fst (lexicographic_binnos 2 [[Fin 1; NaN]; [Fin 5; Fin 0]; [Fin 1; Fin 1]] (Some [2; 2])) = [4; 4; 3] /\
  fst (lexicographic_binnos 2 [[Fin 1; NaN]; [Fin 5; Fin 0]] (Some [2; 2])) = [0; 0].
Proof. exact ex_c13. Qed.

(** ** C14 *)
(** The mask exists and every row is judged by the weight of its own bin: rows
    holding a valid tuple by that tuple's bin, rows with a missing entry by the
    missing bin, and rows with a too large entry by the missing bin provided the
    feature is one-dimensional or the batch contains a valid row. Missing: the
    last case for multi-dimensional batches without a valid row (refuted). *)
Theorem C14_unseen_mask_partial : forall M rows wx n,
  shape n -> weights_for n wx -> length n = M -> (1 <= M)%nat -> (forall r, In r rows -> length r = M) ->
  exists l, not_seen_events M rows wx n = Some l /\ length l = length rows /\
    (forall i row t b, nth_error rows i = Some row -> nth_error l i = Some b ->
      holds_tuple row t -> valid_tuple n t -> (b = true <-> unseen wx (number n t))) /\
    (forall i row b, nth_error rows i = Some row -> nth_error l i = Some b ->
      missing_entry row -> (b = true <-> unseen wx (size n))) /\
    (forall i row t b, nth_error rows i = Some row -> nth_error l i = Some b ->
      holds_tuple row t -> invalid_row n row ->
      (M = 1%nat \/ exists r, In r rows /\ ~ invalid_row n r) -> (b = true <-> unseen wx (size n))).
Proof. exact mask_valid. Qed.
Print Assumptions C14_unseen_mask_partial.

(** A too large row alone in its batch is judged by bin 0. *)
Theorem C14_unseen_mask_refuted : exists n wx row l,
  shape n /\ weights_for n wx /\ length row = length n /\ invalid_row n row /\ (exists t, holds_tuple row t) /\
  not_seen_events (length n) [row] wx n = Some l /\ ~ (nth_error l 0 = Some true <-> unseen wx (size n)).
Proof. exact mask_refuted. Qed.
Print Assumptions C14_unseen_mask_refuted.

Example c14_case : weights_for [2; 2] [1; 0; 2; 3; 1]%Q /\
  not_seen_events 2 [[Fin 0; Fin 1]; [Fin 1; NaN]; [Fin 7; Fin 1]; [Fin 1; Fin 1]] [1; 0; 2; 3; 1]%Q [2; 2]
  = Some [true; false; false; false] /\
  not_seen_events 1 [[Fin 0]; [Fin 7]; [NaN]; [Fin 1]] [1; 0]%Q [2] = Some [false; true; true; true].
Proof. exact ex_c14. Qed.
