(** C58-C61: meta smoothers. A [smoothing_alg] is any pair of fit and predict. *)
From Coq Require Import ZArith QArith Qreals List Bool Reals.
From Verif.Model Require Import Num LexBins Train SmootherChoice MetaSmoothers Orthofit.
From Verif.Spec Require Import LexSpec MetaSpec OrthoSpec.
From Verif.Proofs Require Import MetaFacts CutFacts MetaExamples OrthoDegree.
Import ListNotations.
Local Open Scope R_scope.

(** ** C58 *)
(** The smoother inside sees targets whose weighted mean is zero. *)
Theorem C58_centred : forall s X y rows, length X = length y -> 0 < sumR (weights_of X) ->
  exists m, sumR (map2 Rmult (map (fun v => v - m) y) (weights_of X)) = 0 /\
    predict (normalization s) (fit (normalization s) X y) rows =
    map (option_map (fun v => v + m)) (predict s (fit s X (map (fun v => v - m) y)) rows).
Proof. exact normalization_centred. Qed.
Print Assumptions C58_centred.

Theorem C58_shift : forall s X y c rows, length X = length y -> 0 < sumR (weights_of X) ->
  predict (normalization s) (fit (normalization s) X (map (fun v => v + c) y)) rows =
  map (option_map (fun v => v + c)) (predict (normalization s) (fit (normalization s) X y) rows).
Proof. exact normalization_shift. Qed.
Print Assumptions C58_shift.

Theorem C58_weightless : forall s X y rows, sumR (weights_of X) <= 0 ->
  predict (normalization s) (fit (normalization s) X y) rows = predict s (fit s X y) rows.
Proof. exact normalization_weightless. Qed.
Print Assumptions C58_weightless.

(** The combined wrapper is the cut of the normalised smoother. *)
Theorem C58_combined : forall ndim t s X y rows,
  predict (normalization_regression_type ndim t s) (fit (normalization_regression_type ndim t s) X y) rows =
  predict (regression_type_smoother ndim t (normalization s)) (fit (regression_type_smoother ndim t (normalization s)) X y) rows.
Proof. exact normalization_cut. Qed.
Print Assumptions C58_combined.
Example C58_weight_exists : 0 < sumR (weights_of ex_rows).
Proof. exact ex_rows_weight. Qed.

(** ** C59 *)
Theorem C59_extrapolating : forall ndim s X y rows,
  let S := regression_type_smoother ndim Extrapolating s in
  predict S (fit S X y) rows = predict s (fit s X y) rows.
Proof. exact cut_extrapolating. Qed.
Print Assumptions C59_extrapolating.

Theorem C59_interpolating : forall n s X y rows i row v, leaves_rows s -> shape n -> bins_of n X ->
  nth_error rows i = Some row -> nth_error (predict s (fit s X y) rows) i = Some v ->
  length row = length n -> finite_row row ->
  let S := regression_type_smoother (length n) Interpolating s in
  (within_bins n row -> nth_error (predict S (fit S X y) rows) i = Some v) /\
  (~ within_bins n row -> nth_error (predict S (fit S X y) rows) i = Some None).
Proof. exact cut_interpolating. Qed.
Print Assumptions C59_interpolating.
Example C59_shape_exists : bins_of [3%Z] ex_rows.
Proof. exact ex_rows_bins. Qed.
Example C59_both_sides : within_bins [3%Z] [Fin (5 # 2)] /\ ~ within_bins [3%Z] [Fin 3].
Proof. exact ex_within. Qed.

(** A bin keeps its value iff it had training weight; missing and too large rows
    have none. *)
Theorem C59_discontinuous : forall n s X y rows i row v, leaves_rows s -> shape n -> n <> [] -> bins_of n X ->
  (forall r, In r rows -> length r = length n) ->
  nth_error rows i = Some row -> nth_error (predict s (fit s X y) rows) i = Some v ->
  let S := regression_type_smoother (length n) Discontinuous s in
  (forall t b, holds_tuple row t -> valid_tuple n t -> nth_error X (Z.to_nat (number n t)) = Some b ->
     nth_error (predict S (fit S X y) rows) i = Some (if Qeq_bool (r_w b) 0 then None else v)) /\
  (forall t, holds_tuple row t -> invalid_row n row -> (length n = 1%nat \/ exists r, In r rows /\ ~ invalid_row n r) ->
     nth_error (predict S (fit S X y) rows) i = Some None) /\
  (missing_entry row -> nth_error (predict S (fit S X y) rows) i = Some None).
Proof. exact cut_discontinuous. Qed.
Print Assumptions C59_discontinuous.
(** Smoothers that change the array break the cut: with the orthogonal polynomial a
    row beyond the bins keeps a prediction. *)
Theorem C59_clamped_refuted : exists n X y row v,
  shape n /\ bins_of n X /\ usable_rows X /\ length X = length y /\ length row = length n /\ finite_row row /\
  ~ within_bins n row /\
  let S := regression_type_smoother (length n) Interpolating orthogonal_polynomial in
  predict S (fit S X y) [row] = [Some v].
Proof. exact cut_clamped. Qed.
Print Assumptions C59_clamped_refuted.
Example C59_leaves_rows : leaves_rows total_alg.
Proof. exact total_pure. Qed.
Example C59_rows :
  let S := regression_type_smoother 1 Discontinuous total_alg in
  predict S (fit S ex_rows [1; 2; 3]) [[Fin 0]; [Fin 1]; [Fin 2]; [Fin 3]; [NaN]] =
  [Some 6; None; Some 6; None; None].
Proof. exact ex_cut. Qed.

(** ** C60 *)
(** Each section is smoothed by its own smoother from its own rows. *)
Theorem C60_sections : forall sp e lo up nr X y rows fl fu, length X = length y -> X <> [] ->
  rowwise lo fl -> rowwise up fu ->
  exists st, section_fit sp e lo up X y = Some st /\
    section_predict sp e lo up nr st rows =
    map (fun row => if lower_row sp e row
                    then part_result lo fl (fun r => r) (fun r => lower_row sp e (r_x r)) X y row
                    else part_result up fu (fun r => r) (fun r => negb (lower_row sp e (r_x r))) X y row) rows.
Proof. exact section_result. Qed.
Print Assumptions C60_sections.

(** The rows of the other section do not matter. *)
Theorem C60_isolated : forall sp e lo up nr X y X' y' fl fu st st' row,
  length X = length y -> length X' = length y' -> rowwise lo fl -> rowwise up fu ->
  section_fit sp e lo up X y = Some st -> section_fit sp e lo up X' y' = Some st' ->
  part_rows (fun r => Bool.eqb (lower_row sp e (r_x r)) (lower_row sp e row)) X y =
  part_rows (fun r => Bool.eqb (lower_row sp e (r_x r)) (lower_row sp e row)) X' y' ->
  part_targets (fun r => Bool.eqb (lower_row sp e (r_x r)) (lower_row sp e row)) X y =
  part_targets (fun r => Bool.eqb (lower_row sp e (r_x r)) (lower_row sp e row)) X' y' ->
  section_predict sp e lo up nr st [row] = section_predict sp e lo up nr st' [row].
Proof. exact section_isolated. Qed.
Print Assumptions C60_isolated.

(** The requested value [r] for a section without training rows is not used. *)
Theorem C60_representation_refuted :
  exists sp e lo up X y rows (r : R), X <> [] /\ length X = length y /\
    exists st, section_fit sp e lo up X y = Some st /\
      section_predict sp e lo up (Some r) st rows = map (fun _ => None) rows /\ rows <> [].
Proof. exact section_representation_ignored. Qed.
Print Assumptions C60_representation_refuted.
Example C60_two_sections :
  exists st, section_fit 0 (1 # 10) total_alg total_alg ex_rows [1; 2; 3] = Some st /\
    section_predict 0 (1 # 10) total_alg total_alg None st [[Fin 0]; [Fin 2]; [NaN]] = [Some 1; Some 5; Some 5].
Proof. exact ex_section. Qed.

(** ** C61 *)
(** A row is predicted by a smoother fitted to the rows of its group, NaN if there
    are none; with [drop], also if the group has no weight. *)
Theorem C61_groups : forall (drop : bool) s f X y rows, length X = length y -> rowwise s f ->
  group_by_predict s (group_by_fit drop s X y) rows =
  map (fun r => if negb drop || negb (Qle_bool (weight_of_group (fst r) X) 0)
                then part_result s f g_row (in_group (fst r)) X y (snd r) else None) rows.
Proof. exact group_result. Qed.
Print Assumptions C61_groups.

Theorem C61_isolated : forall (drop : bool) s f X y X' y' key row,
  length X = length y -> length X' = length y' -> rowwise s f ->
  part_rows (in_group key) X y = part_rows (in_group key) X' y' ->
  part_targets (in_group key) X y = part_targets (in_group key) X' y' ->
  group_by_predict s (group_by_fit drop s X y) [(key, row)] = group_by_predict s (group_by_fit drop s X' y') [(key, row)].
Proof. exact group_isolated. Qed.
Print Assumptions C61_isolated.
Example C61_three_groups :
  group_by_predict total_alg (group_by_fit true total_alg ex_groups [1; 2; 3; 4])
    [([0%Z], [Fin 0]); ([1%Z], [Fin 0]); ([2%Z], [Fin 0])] = [Some 3; None; None] /\
  group_by_predict total_alg (group_by_fit false total_alg ex_groups [1; 2; 3; 4])
    [([0%Z], [Fin 0]); ([1%Z], [Fin 0]); ([2%Z], [Fin 0])] = [Some 3; Some 7; None].
Proof. exact ex_group. Qed.
