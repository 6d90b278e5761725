(** C133: the plot of a feature group of two columns. *)
From Coq Require Import ZArith List Bool Reals.
From Verif.Model Require Import Num Train Estimators PlotAxis Plot2D.
From Verif.Spec Require Import LexSpec TableSpec AxisSpec Plot2DSpec.
From Verif.Proofs Require Import Plot2DFacts Plot2DExamples Plot2DCurves.
Import ListNotations.
Local Open Scope R_scope.

(** The plot can always be drawn. *)
Theorem C133_drawn : forall n m unfitted smoothed weights yp, plot_input n m unfitted smoothed weights yp ->
  exists p, drawn_plot (fun fuel => plot_factor_2d fuel n m unfitted smoothed weights yp) p.
Proof. exact plot_drawn. Qed.
Print Assumptions C133_drawn.

(** The pictures show the value of each pair of bins at its place, to the right for the
    first and upwards for the second column; the box shows the factor of missing values
    unless it is almost neutral. *)
Theorem C133_pictures : forall n m unfitted smoothed weights yp, plot_input n m unfitted smoothed weights yp ->
  forall fuel p i j, plot_factor_2d fuel n m unfitted smoothed weights yp = Some p -> (i < n)%nat -> (j < m)%nat ->
  pixel (p_smoothed p) i j = at_bins n m smoothed i j /\ pixel (p_deviations p) i j = at_bins n m (shown_first unfitted yp) i j.
Proof. exact plot_pixels. Qed.
Print Assumptions C133_pictures.
Theorem C133_box : forall n m unfitted smoothed weights yp, plot_input n m unfitted smoothed weights yp ->
  forall fuel p, plot_factor_2d fuel n m unfitted smoothed weights yp = Some p ->
  (1 / 10000 < Rabs (last smoothed 0) -> i_box (p_smoothed p) = Some (last smoothed 0)) /\
  (Rabs (last smoothed 0) <= 1 / 10000 -> i_box (p_smoothed p) = None).
Proof. exact plot_box. Qed.
Print Assumptions C133_box.

(** All smoothed factors are in the range of the colours, the neutral factor in its middle. *)
Theorem C133_colours_partial : forall n m unfitted smoothed weights yp, plot_input n m unfitted smoothed weights yp ->
  forall fuel p, plot_factor_2d fuel n m unfitted smoothed weights yp = Some p ->
  fst (p_limits p) = - snd (p_limits p) /\
  forall i j, (i < n)%nat -> (j < m)%nat -> fst (p_limits p) <= at_bins n m smoothed i j <= snd (p_limits p).
Proof. exact plot_limits. Qed.
Print Assumptions C133_colours_partial.

(** Missing: the values in the first picture. They have the same limits. *)
Theorem C133_first_colours_refuted : exists n m unfitted smoothed weights p, plot_input n m unfitted smoothed weights None /\
  drawn_plot (fun fuel => plot_factor_2d fuel n m unfitted smoothed weights None) p /\
  pixel (p_deviations p) 0 1 = ln 3 /\ 0 < ln 3 /\ p_limits p = (- 0, 0).
Proof. exact first_picture_limits. Qed.
Print Assumptions C133_first_colours_refuted.

(** ... and the box for missing values in the first picture, which shows the factor before
    smoothing, also if the picture shows deviations. *)
Theorem C133_first_box_refuted : exists n m unfitted smoothed weights y prediction deviations p,
  plot_input n m unfitted smoothed weights (Some (y, prediction, deviations)) /\
  drawn_plot (fun fuel => plot_factor_2d fuel n m unfitted smoothed weights (Some (y, prediction, deviations))) p /\
  last deviations 0 = 0 /\ i_box (p_deviations p) = Some 1.
Proof. exact first_picture_box. Qed.
Print Assumptions C133_first_box_refuted.

(** Every curve of the two diagrams is on the axis of its diagram. *)
Theorem C133_axes : forall n m unfitted smoothed weights yp, plot_input n m unfitted smoothed weights yp ->
  forall fuel p a b, plot_factor_2d fuel n m unfitted smoothed weights yp = Some p -> p_marginals p = Some (a, b) ->
  (forall v, In v (curves a) -> on_axis (g_axis a) v) /\ (forall v, In v (curves b) -> on_axis (g_axis b) v).
Proof. exact plot_axes. Qed.
Print Assumptions C133_axes.
Theorem C133_samples : forall n m unfitted smoothed weights yp, plot_input n m unfitted smoothed weights yp ->
  forall fuel p, plot_factor_2d fuel n m unfitted smoothed weights yp = Some p -> (p_marginals p = None <-> n = 0%nat).
Proof. exact plot_samples. Qed.
Print Assumptions C133_samples.

(** The curve of the smoothed factors has one point for each bin of its column, between the
    smallest and the largest smoothed factor for that bin. *)
Theorem C133_marginal_range : forall n m unfitted smoothed weights yp, plot_input n m unfitted smoothed weights yp ->
  forall fuel p a b, plot_factor_2d fuel n m unfitted smoothed weights yp = Some p -> p_marginals p = Some (a, b) ->
  nonneg_bins n m weights -> (0 < n)%nat -> (0 < m)%nat ->
  (length (g_smoothed a) = n /\ forall i lo hi, (i < n)%nat ->
     (forall j, (j < m)%nat -> lo <= at_bins n m smoothed i j <= hi) -> lo <= nth i (g_smoothed a) 0 <= hi) /\
  (length (g_smoothed b) = m /\ forall j lo hi, (j < m)%nat ->
     (forall i, (i < n)%nat -> lo <= at_bins n m smoothed i j <= hi) -> lo <= nth j (g_smoothed b) 0 <= hi).
Proof. exact marginal_range. Qed.
Print Assumptions C133_marginal_range.

(** It is the mean factor of the training rows in that bin, if no pair of bins is empty. *)
Theorem C133_marginal_means_partial : forall n m unfitted smoothed yp rows fuel p a b,
  let weights := recorded_weights n m rows in
  plot_input n m unfitted smoothed weights yp -> rows_of_table n m rows -> occupied_bins n m weights -> (0 < n)%nat -> (0 < m)%nat ->
  plot_factor_2d fuel n m unfitted smoothed weights yp = Some p -> p_marginals p = Some (a, b) ->
  (forall i, (i < n)%nat -> exp (nth i (g_smoothed a) 0) = mean_factor n m smoothed (first_is i) rows) /\
  (forall j, (j < m)%nat -> exp (nth j (g_smoothed b) 0) = mean_factor n m smoothed (second_is j) rows).
Proof. exact row_means. Qed.
Print Assumptions C133_marginal_means_partial.
Example C133_example : plot_input 2 2 some_factors some_factors (recorded_weights 2 2 four_rows) (Some (no_factors, some_factors, no_factors)) /\
  rows_of_table 2 2 four_rows /\ occupied_bins 2 2 (recorded_weights 2 2 four_rows) /\ mean_factor 2 2 some_factors (first_is 0) four_rows = 7/3.
Proof. exact four_rows_example. Qed.

(** Pairs of bins without any row count like a row: 2 is shown where the rows have the mean
    factor 1. *)
Theorem C133_empty_bins_refuted : exists n m smoothed rows p a b,
  let weights := recorded_weights n m rows in
  plot_input n m smoothed smoothed weights None /\ rows_of_table n m rows /\ (0 < n)%nat /\ (0 < m)%nat /\
  drawn_plot (fun fuel => plot_factor_2d fuel n m smoothed smoothed weights None) p /\ p_marginals p = Some (a, b) /\
  exp (nth 0 (g_smoothed a) 0) = 2 /\ mean_factor n m smoothed (first_is 0) rows = 1.
Proof. exact empty_bins_count. Qed.
Print Assumptions C133_empty_bins_refuted.

(** Drawing leaves the recorded weights as they are if no pair of bins is empty, ... *)
Theorem C133_weights_partial : forall n m unfitted smoothed weights yp, plot_input n m unfitted smoothed weights yp ->
  forall fuel p, plot_factor_2d fuel n m unfitted smoothed weights yp = Some p ->
  (occupied_bins n m weights \/ n = 0%nat -> p_weights p = weights) /\
  (n <> 0%nat -> forall i j, (i < n)%nat -> (j < m)%nat -> at_bins n m weights i j = 0 -> at_bins n m (p_weights p) i j = 1).
Proof. exact plot_weights. Qed.
Print Assumptions C133_weights_partial.

(** ... and in any case drawing again gives the same plot. *)
Theorem C133_again : forall n m unfitted smoothed weights yp fuel p, plot_input n m unfitted smoothed weights yp ->
  plot_factor_2d fuel n m unfitted smoothed weights yp = Some p ->
  plot_factor_2d fuel n m unfitted smoothed (p_weights p) yp = Some p.
Proof. exact plot_again. Qed.
Print Assumptions C133_again.

(** But the weights of empty pairs of bins recorded by the observer are changed to 1. *)
Theorem C133_weights_refuted : exists n m smoothed rows p,
  let weights := recorded_weights n m rows in
  plot_input n m smoothed smoothed weights None /\ rows_of_table n m rows /\
  drawn_plot (fun fuel => plot_factor_2d fuel n m smoothed smoothed weights None) p /\
  at_bins n m weights 0 1 = 0 /\ at_bins n m (p_weights p) 0 1 = 1.
Proof. exact drawing_changes. Qed.
Print Assumptions C133_weights_refuted.

(** The curve labelled as the prediction is the one that is drawn for the predictions in
    place of the smoothed factors, and the curve labelled as the truth is that of the targets.
    (By [C133_drawn] all three plots can be drawn.) *)
Theorem C133_curves : forall n m unfitted smoothed weights y prediction deviations fuel p a b
    unfitted1 yp1 fuel1 p1 a1 b1 unfitted2 yp2 fuel2 p2 a2 b2,
  plot_factor_2d fuel n m unfitted smoothed weights (Some (y, prediction, deviations)) = Some p -> p_marginals p = Some (a, b) ->
  plot_factor_2d fuel1 n m unfitted1 prediction weights yp1 = Some p1 -> p_marginals p1 = Some (a1, b1) ->
  plot_factor_2d fuel2 n m unfitted2 y weights yp2 = Some p2 -> p_marginals p2 = Some (a2, b2) ->
  g_others a = [g_smoothed a1; g_smoothed a2] /\ g_others b = [g_smoothed b1; g_smoothed b2].
Proof. exact plot_curves. Qed.
Print Assumptions C133_curves.

(** Without targets and predictions, the other curve is that of the factors before smoothing. *)
Theorem C133_single_curve : forall n m unfitted smoothed weights fuel p a b unfitted1 yp1 fuel1 p1 a1 b1,
  plot_factor_2d fuel n m unfitted smoothed weights None = Some p -> p_marginals p = Some (a, b) ->
  plot_factor_2d fuel1 n m unfitted1 unfitted weights yp1 = Some p1 -> p_marginals p1 = Some (a1, b1) ->
  g_others a = [g_smoothed a1] /\ g_others b = [g_smoothed b1].
Proof. exact plot_single_curve. Qed.
Print Assumptions C133_single_curve.
