(** C122: boundaries and labels in plots. *)
From Coq Require Import ZArith NArith QArith List Bool String.
From Verif.Model Require Import Num BinarySearch Flags Ecdf BinTransform Frames BinBounds.
From Verif.Spec Require Import BinningSpec FrameSpec BoundsSpec.
From Verif.Proofs Require Import FrameFacts BoundsFacts BoundsExamples.
Import ListNotations.
Local Open Scope nat_scope.

(** What is reported for a column is what the last binner that knows it has learned. *)
Theorem C122_reported : forall b T b' before after c p f, table T -> bin_fit b T = FOk b' -> Forall trained before ->
  Forall (trained_without c) after -> learned b T c p f ->
  get_bin_bounds (Some (before ++ b' :: after)) c = match f with Fitted _ bb _ => Bounds bb | _ => NoBounds end.
Proof. exact reported. Qed.
Print Assumptions C122_reported.

Theorem C122_unknown_columns : forall bs c, Forall (trained_without c) bs -> get_bin_bounds (Some bs) c = NoBounds.
Proof. exact reported_unknown. Qed.
Print Assumptions C122_unknown_columns.

Theorem C122_unfitted_binner : forall bs c b, In b bs -> b_fitted b = None -> get_bin_bounds (Some bs) c = BoundsError.
Proof. exact reported_unfitted. Qed.
Print Assumptions C122_unfitted_binner.

Example c122_two_binners : Forall trained [ex_fitted false] /\ Forall (trained_without (LName "kind")) [ex_second] /\
  (exists p f, learned (ex_binner false) ex_train (LName "kind") p f) /\
  exists bb, get_bin_bounds (Some [ex_fitted false; ex_second]) (LName "kind") = Bounds bb /\ List.length bb = 3.
Proof. exact two_binners. Qed.

(** The boundaries of a continuous column describe its bins: bin [k] holds the values
    between the boundaries [k] and [k + 1], with a tolerance of epsilon, the first and
    the last bin also those beyond. *)
Theorem C122_boundaries_describe_bins : forall prop n eps tol zw e bb cc x k,
  check_flags_consistency prop = FlagsOk -> is_continuous_set prop = true -> (2 <= n)%Z -> (0 <= tol)%Q ->
  fit_column prop n eps tol zw = Fitted e bb cc -> regular prop x ->
  (put_in prop (Fitted e bb cc) x k <->
   k < List.length bb - 1 /\
   (k = 0 \/ exists l, nth_error bb k = Some l /\ flt l (fsub x e) = true) /\
   (S k = List.length bb - 1 \/ exists r, nth_error bb (S k) = Some r /\ fle (fsub x e) r = true)).
Proof. exact described. Qed.
Print Assumptions C122_boundaries_describe_bins.

(** There are as many labels as bins, and every bin holds a row of the training. *)
Theorem C122_one_label_per_bin : forall c bb, List.length (axis_labels c bb) = List.length bb - 1.
Proof. exact labels_length. Qed.
Print Assumptions C122_one_label_per_bin.

Theorem C122_no_empty_bin : forall prop n eps tol zw e bb cc,
  check_flags_consistency prop = FlagsOk -> is_continuous_set prop = true -> positive_weights zw -> finite_or_nan zw ->
  (2 <= n)%Z -> (0 <= tol < 1)%Q -> (0 <= eps)%Q -> (eps < (1 - tol) / inject_Z n)%Q ->
  fit_column prop n eps tol zw = Fitted e bb cc ->
  (forall x w, In (x, w) zw -> isfinite x = true -> regular prop x) ->
  forall k, k < List.length bb - 1 -> exists x w, In (x, w) zw /\ put_in prop (Fitted e bb cc) x k.
Proof. exact occupied_continuous. Qed.
Print Assumptions C122_no_empty_bin.

(** Each label of a continuous column lies in its bin, if the centre of the bin has at
    most five decimals or the bin is wide enough. *)
Theorem C122_labels_partial : forall prop n eps tol zw e bb cc,
  check_flags_consistency prop = FlagsOk -> is_continuous_set prop = true -> positive_weights zw -> finite_or_nan zw ->
  (2 <= n)%Z -> (0 <= tol < 1)%Q -> (0 <= eps)%Q -> (eps < (1 - tol) / inject_Z n)%Q ->
  fit_column prop n eps tol zw = Fitted e bb cc ->
  forall k lab, nth_error (axis_labels true bb) k = Some lab -> regular prop lab ->
  exists l r, nth_error bb k = Some (Fin l) /\ nth_error bb (S k) = Some (Fin r) /\
    (five_decimals ((l + r) / 2) \/ (1#100000) < (1 - 2 * eps) * (r - l) -> put_in prop (Fitted e bb cc) lab k)%Q.
Proof. exact labels_right. Qed.
Print Assumptions C122_labels_partial.

(** The labels of categories are the values of the categories. *)
Theorem C122_category_labels : forall prop n eps tol zw e bb cc k lab,
  check_flags_consistency prop = FlagsOk -> is_continuous_set prop = false -> (2 <= n)%Z ->
  positive_weights zw -> finite_or_nan zw -> (0 <= eps)%Q -> (eps < 1)%Q ->
  fit_column prop n eps tol zw = Fitted e bb cc ->
  nth_error (axis_labels false bb) k = Some lab ->
  (exists w, In (lab, w) zw) /\ (regular prop lab -> put_in prop (Fitted e bb cc) lab k).
Proof. exact category_labels. Qed.
Print Assumptions C122_category_labels.

Example c122_continuous : positive_weights amounts /\ finite_or_nan amounts /\
  (forall x w, In (x, w) amounts -> isfinite x = true -> regular 1 x) /\
  check_flags_consistency 1 = FlagsOk /\ is_continuous_set 1 = true /\ ((1#1000) < (1 - (1#10)) / inject_Z 4)%Q /\
  exists e cc, fit_column 1 4 (1#1000) (1#10) amounts = Fitted e [Fin 1; Fin 2; Fin 4; Fin 9; Fin 11] cc /\
    axis_labels true [Fin 1; Fin 2; Fin 4; Fin 9; Fin 11] =
      [Fin (150000#100000); Fin (300000#100000); Fin (650000#100000); Fin (1000000#100000)] /\
    put_in 1 (Fitted e [Fin 1; Fin 2; Fin 4; Fin 9; Fin 11] cc) (Fin (650000#100000)) 2.
Proof. exact amounts_column. Qed.
Example c122_ordered : check_flags_consistency 2 = FlagsOk /\ is_continuous_set 2 = false /\
  exists e cc, fit_column 2 4 (1#1000) (1#10) amounts = Fitted e [Fin 1; Fin 1; Fin 2; Fin 4; Fin 7; Fin 9; Fin 11] cc /\
    axis_labels false [Fin 1; Fin 1; Fin 2; Fin 4; Fin 7; Fin 9; Fin 11] = [Fin 1; Fin 2; Fin 4; Fin 7; Fin 9; Fin 11].
Proof. exact amounts_ordered. Qed.

(** Rounded to five decimals, the labels of narrow bins lie in other bins. *)
Theorem C122_narrow_bins_refuted : exists zw e bb cc lab k, positive_weights zw /\ finite_or_nan zw /\
  fit_column 1 3 0 (1#10) zw = Fitted e bb cc /\ nth_error (axis_labels true bb) k = Some lab /\
  put_in 1 (Fitted e bb cc) lab 0 /\ k = 2.
Proof. exact narrow_labels. Qed.
Print Assumptions C122_narrow_bins_refuted.

(** Categories with the linear flag are labelled like continuous columns, with numbers
    that are no categories. *)
Theorem C122_linear_categories_refuted : exists zw e bb cc lab k, positive_weights zw /\ finite_or_nan zw /\
  check_flags_consistency 258 = FlagsOk /\ is_ordered_set 258 = true /\ is_linear_set 258 = true /\
  fit_column 258 3 0 (1#10) zw = Fitted e bb cc /\ nth_error (axis_labels (drawn_continuous 258) bb) k = Some lab /\
  transform_column 258 (Fitted e bb cc) [lab] = Some [Fin (inject_Z (-1))].
Proof. exact linear_labels. Qed.
Print Assumptions C122_linear_categories_refuted.

(** In plots of continuous columns the label of each bin stands half a bin to the left
    of the factor of the bin. *)
Theorem C122_ticks_always_refuted : forall n k, k < n -> exists t c, nth_error (axis_range true n) k = Some t /\
  nth_error (curve_range true (axis_range true n)) k = Some c /\ (t == c - (1#2))%Q.
Proof. exact ticks. Qed.
Print Assumptions C122_ticks_always_refuted.
