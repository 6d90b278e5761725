(** C123: the vertical axis of factor plots. *)
From Coq Require Import ZArith QArith Qabs List Bool Reals.
From Verif.Model Require Import PlotAxis.
From Verif.Spec Require Import AxisSpec.
From Verif.Proofs Require Import AxisFacts AxisExamples.
Import ListNotations.
Local Open Scope R_scope.

(** Every factor, smoothed factor, target and prediction of the plot is on the axis;
    with errors, also the error bars of the bins from the third on. Missing for the full
    property: the error bars of the first two bins and of the bin for missing values
    (refuted below). *)
Theorem C123_shown_partial : forall errors factors smoothed others lower upper,
  factors <> [] -> length lower = length factors -> length upper = length factors -> positive lower -> positive upper ->
  exists a, drawn_with (fun fuel => plot_axis fuel errors factors smoothed others lower upper) a /\
  (forall v, In v (factors ++ smoothed ++ others) -> on_axis a v) /\
  (errors = true -> forall k, (2 <= k)%nat -> (S k < length factors)%nat ->
     on_axis a (nth k factors 0 - nth k lower 0) /\ on_axis a (nth k factors 0 + nth k upper 0)).
Proof. exact plot_covers. Qed.
Print Assumptions C123_shown_partial.

Example c123_case : (good_factors <> [] /\ length good_errors = length good_factors /\ positive good_errors /\
  (2 <= 2)%nat /\ (3 < length good_factors)%nat) /\
  exists a, drawn_with (fun fuel => plot_axis fuel true good_factors good_smoothed [] good_errors good_errors) a /\
  a_low a = 0%Z /\ a_high a = 3%Z /\ length (a_ticks a) = 16%nat.
Proof. split; [exact good_hypotheses|exact good_axis]. Qed.

(** "Option to show the errorbars in the plot completely": an error bar of a drawn bin
    reaches beyond the axis. *)
Theorem C123_error_bars_refuted : exists factors smoothed errors,
  factors <> [] /\ length errors = length factors /\ positive errors /\
  exists k, In k (drawn false (seq 0 (length factors))) /\
  forall a, drawn_with (fun fuel => plot_axis fuel true factors smoothed [] errors errors) a ->
  ~ on_axis a (nth k factors 0 + nth k errors 0).
Proof. exact bars_cut. Qed.
Print Assumptions C123_error_bars_refuted.

Theorem C123_missing_error_bar_refuted : exists factors smoothed errors,
  factors <> [] /\ length errors = length factors /\ positive errors /\
  exists k, In k (drawn true (seq 0 (length factors))) /\
  forall a, drawn_with (fun fuel => plot_axis fuel true factors smoothed [] errors errors) a ->
  ~ on_axis a (nth k factors 0 + nth k errors 0).
Proof. exact missing_bar_cut. Qed.
Print Assumptions C123_missing_error_bar_refuted.

(** An axis for a single factor leaves half a unit on both sides of it. *)
Theorem C123_single_factor : forall v u, exists a, drawn_with (fun fuel => get_y_axis fuel [v] u) a /\
  on_axis a (v - 1/2) /\ on_axis a (v + 1/2) /\ (a_low a < a_high a)%Z.
Proof. exact single_factor. Qed.
Print Assumptions C123_single_factor.

(** Every axis has 12 to 21 ticks, which divide it into equal parts. *)
Theorem C123_ticks : forall fuel f u a, get_y_axis fuel f u = Some a ->
  even_ticks a /\ (12 <= length (a_ticks a) <= 21)%nat.
Proof. exact ticks_even. Qed.
Print Assumptions C123_ticks.

(** The number written at a tick is the position of the tick up to 0.01, ... *)
Theorem C123_labels : forall fuel f u a k, get_y_axis fuel f u = Some a -> (k < length (a_ticks a))%nat ->
  length (a_labels a) = length (a_ticks a) /\ (Qabs (nth k (a_labels a) 0 - nth k (a_ticks a) 0) < 1 # 100)%Q.
Proof. exact labels_close. Qed.
Print Assumptions C123_labels.

(** ... and the numbers increase, so that no two ticks have the same one. *)
Theorem C123_labels_increase : forall fuel f u a i j, get_y_axis fuel f u = Some a -> (a_low a < a_high a)%Z ->
  (i < j)%nat -> (j < length (a_ticks a))%nat -> (nth i (a_labels a) 0 < nth j (a_labels a) 0)%Q.
Proof. exact labels_increase. Qed.
Print Assumptions C123_labels_increase.

(** Without the condition: the 21 ticks of the plot of a feature without any influence
    are all at the same place. *)
Theorem C123_ticks_collapse_refuted : exists factors smoothed errors,
  factors <> [] /\ length errors = length factors /\ positive errors /\
  exists a, drawn_with (fun fuel => plot_axis fuel true factors smoothed [] errors errors) a /\
  length (a_ticks a) = 21%nat /\ forall t, In t (a_ticks a) -> (t == 1)%Q.
Proof. exact ticks_collapse. Qed.
Print Assumptions C123_ticks_collapse_refuted.
