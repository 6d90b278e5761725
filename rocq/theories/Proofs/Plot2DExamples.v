(** Examples for the plot of a feature group of two columns. *)
From Coq Require Import ZArith List Bool Reals Lra Lia.
From Verif.Model Require Import Num Train Estimators PlotAxis Plot2D.
From Verif.Spec Require Import LexSpec TableSpec AxisSpec Plot2DSpec.
From Verif.Proofs Require Import TrainFacts LinkFacts ImportanceFacts TableFacts AxisFacts Plot2DFacts.
Import ListNotations.
Local Open Scope R_scope.

(** Two bins in each column. In the first data two of the four bins are empty, in the second
    none is. *)
Definition two_rows : list two_row := [(Some (0, 0)%nat, 1); (Some (1, 1)%nat, 1)].
Definition four_rows : list two_row := two_rows ++ [(Some (0, 1)%nat, 2); (Some (1, 0)%nat, 1); (None, 5)].
Definition some_factors : list R := [0; ln 3; 0; 0; 0].
Definition no_factors : list R := [0; 0; 0; 0; 0].

Lemma two_weights : recorded_weights 2 2 two_rows = [1; 0; 0; 1; 0].
Proof.
  unfold recorded_weights, bincounts, four_rows, two_rows. cbn [app map fst snd]. rewrite !number_nat. cbn [number_of Nat.mul Nat.add seq map bin_total Nat.eqb].
  repeat (apply (f_equal2 (@cons R)); [lra|]). reflexivity.
Qed.
Lemma four_weights : recorded_weights 2 2 four_rows = [1; 2; 1; 1; 5].
Proof.
  unfold recorded_weights, bincounts, four_rows, two_rows. cbn [app map fst snd]. rewrite !number_nat. cbn [number_of Nat.mul Nat.add seq map bin_total Nat.eqb].
  repeat (apply (f_equal2 (@cons R)); [lra|]). reflexivity.
Qed.

Lemma input_two : plot_input 2 2 some_factors some_factors (recorded_weights 2 2 two_rows) None.
Proof. rewrite two_weights. repeat split; discriminate. Qed.
Lemma input_four : plot_input 2 2 some_factors some_factors (recorded_weights 2 2 four_rows) (Some (no_factors, some_factors, no_factors)).
Proof. rewrite four_weights. repeat split; injection H as <- <- <-; reflexivity. Qed.

Lemma two_rows_table : rows_of_table 2 2 two_rows.
Proof.
  unfold rows_of_table, two_rows.
  repeat (apply Forall_cons; [cbn [fst snd]; split; [lra|intros i j E; injection E as <- <-; lia]|]). apply Forall_nil.
Qed.

Example four_rows_example : plot_input 2 2 some_factors some_factors (recorded_weights 2 2 four_rows) (Some (no_factors, some_factors, no_factors)) /\
  rows_of_table 2 2 four_rows /\ occupied_bins 2 2 (recorded_weights 2 2 four_rows) /\ mean_factor 2 2 some_factors (first_is 0) four_rows = 7/3.
Proof.
  split; [exact input_four|]. split; [|split].
  - unfold rows_of_table, four_rows, two_rows. cbn [app].
    repeat (apply Forall_cons; [cbn [fst snd]; split; [lra|intros i j E; try discriminate E; injection E as <- <-; lia]|]). apply Forall_nil.
  - rewrite four_weights. intros i j I J. destruct i as [|[|i]]; [| |lia]; (destruct j as [|[|j]]; [| |lia]); cbv - [Rlt IZR]; lra.
  - unfold mean_factor, row_sum, four_rows, two_rows. cbn [app map fst snd first_is Nat.eqb sumR].
    rewrite !at_bins_nth. cbn [Nat.mul Nat.add some_factors nth]. rewrite exp_0, exp_ln by lra. field.
Qed.

(** Empty bins count like bins of weight 1. *)
Theorem empty_bins_count : exists n m smoothed rows p a b, 
  let weights := recorded_weights n m rows in
  plot_input n m smoothed smoothed weights None /\ rows_of_table n m rows /\ (0 < n)%nat /\ (0 < m)%nat /\
  drawn_plot (fun fuel => plot_factor_2d fuel n m smoothed smoothed weights None) p /\ p_marginals p = Some (a, b) /\
  exp (nth 0 (g_smoothed a) 0) = 2 /\ mean_factor n m smoothed (first_is 0) rows = 1.
Proof.
  destruct (plot_drawn _ _ _ _ _ _ input_two) as (p & steps & D). pose proof (D steps (le_n _)) as E.
  destruct (p_marginals p) as [[a b]|] eqn:G.
  2:{ apply (plot_samples _ _ _ _ _ _ input_two steps p E) in G. discriminate G. }
  exists 2%nat, 2%nat, some_factors, two_rows, p, a, b. cbv zeta. split; [exact input_two|]. split; [exact two_rows_table|].
  split; [lia|]. split; [lia|]. split; [exists steps; exact D|]. split; [exact G|]. split.
  - destruct (plot_lines _ _ _ _ _ _ input_two steps p a b E G) as (L & _). rewrite L. rewrite nth_seq by lia.
    assert (F : forall j, (j < 2)%nat -> at_bins 2 2 (refilled (recorded_weights 2 2 two_rows)) 0 j = 1).
    { intros j J. rewrite (refilled_at _ _ _ _ _ _ input_two) by lia. rewrite two_weights.
      destruct j as [|[|j]]; [| |lia]; unfold filled; rewrite at_bins_nth; cbn [Nat.mul Nat.add nth].
      - rewrite (proj2 (Reqb_false_iff 1 0)) by lra. reflexivity.
      - rewrite (proj2 (Reqb_iff 0 0)) by reflexivity. reflexivity. }
    rewrite exp_line; [|lia|intros j J; rewrite F by exact J; lra]. cbn [seq map sumR]. rewrite !F by lia.
    rewrite !at_bins_nth. cbn [Nat.mul Nat.add some_factors nth]. rewrite exp_0, exp_ln by lra. field.
  - unfold mean_factor, row_sum, two_rows. cbn [map fst snd first_is Nat.eqb sumR].
    rewrite !at_bins_nth. cbn [Nat.mul Nat.add some_factors nth]. rewrite exp_0. field.
Qed.

(** Drawing changes the weights the observer has recorded. *)
Theorem drawing_changes : exists n m smoothed rows p, 
  let weights := recorded_weights n m rows in
  plot_input n m smoothed smoothed weights None /\ rows_of_table n m rows /\
  drawn_plot (fun fuel => plot_factor_2d fuel n m smoothed smoothed weights None) p /\
  at_bins n m weights 0 1 = 0 /\ at_bins n m (p_weights p) 0 1 = 1.
Proof.
  destruct (plot_drawn _ _ _ _ _ _ input_two) as (p & steps & D). pose proof (D steps (le_n _)) as E.
  exists 2%nat, 2%nat, some_factors, two_rows, p. cbv zeta. split; [exact input_two|]. split; [exact two_rows_table|].
  split; [exists steps; exact D|]. assert (Z : at_bins 2 2 (recorded_weights 2 2 two_rows) 0 1 = 0) by (rewrite two_weights, at_bins_nth; reflexivity).
  split; [exact Z|]. apply (proj2 (plot_weights _ _ _ _ _ _ input_two steps p E)); try lia. exact Z.
Qed.

(** The colours of the first picture are limited by the smoothed factors. *)
Theorem first_picture_limits : exists n m unfitted smoothed weights p, plot_input n m unfitted smoothed weights None /\
  drawn_plot (fun fuel => plot_factor_2d fuel n m unfitted smoothed weights None) p /\
  pixel (p_deviations p) 0 1 = ln 3 /\ 0 < ln 3 /\ p_limits p = (- 0, 0).
Proof.
  assert (I : plot_input 2 2 some_factors no_factors no_factors None) by (repeat split; discriminate).
  destruct (plot_drawn _ _ _ _ _ _ I) as (p & steps & D). pose proof (D steps (le_n _)) as E.
  exists 2%nat, 2%nat, some_factors, no_factors, no_factors, p. split; [exact I|]. split; [exists steps; exact D|]. split; [|split].
  - rewrite (proj2 (plot_pixels _ _ _ _ _ _ I steps p 0 1 E ltac:(lia) ltac:(lia))). reflexivity.
  - rewrite <- ln_1. apply ln_increasing; lra.
  - destruct (plot_picture _ _ _ _ _ _ I steps p E) as (g & -> & _). cbn [picture p_limits]. unfold limit, extremal_factor.
    cbn [Nat.mul Nat.add Nat.eqb]. assert (C : concat (table 2 2 (at_bins 2 2 no_factors)) = [0; 0; 0; 0]).
    { unfold table. cbn [seq map concat app]. rewrite !at_bins_nth. reflexivity. }
    rewrite C. cbn [maximum minimum fold_left]. repeat rewrite (Rmax_left 0 0) by lra. repeat rewrite (Rmin_left 0 0) by lra.
    rewrite Rabs_R0. rewrite (Rmax_left 0 0) by lra. reflexivity.
Qed.

(** The box for missing values of the picture of the deviations shows a factor. *)
Theorem first_picture_box : exists n m unfitted smoothed weights y prediction deviations p,
  plot_input n m unfitted smoothed weights (Some (y, prediction, deviations)) /\
  drawn_plot (fun fuel => plot_factor_2d fuel n m unfitted smoothed weights (Some (y, prediction, deviations))) p /\
  last deviations 0 = 0 /\ i_box (p_deviations p) = Some 1.
Proof.
  assert (I : plot_input 2 2 [0; 0; 0; 0; 1] no_factors no_factors (Some (no_factors, no_factors, no_factors))).
  { repeat split; injection H as <- <- <-; reflexivity. }
  destruct (plot_drawn _ _ _ _ _ _ I) as (p & steps & D). pose proof (D steps (le_n _)) as E.
  do 8 eexists. exists p. split; [exact I|]. split; [exists steps; exact D|]. split; [reflexivity|].
  destruct (plot_picture _ _ _ _ _ _ I steps p E) as (g & -> & _). cbn [picture p_deviations imshow_factors i_box last].
  rewrite Rabs_R1. rewrite (proj2 (Rltb_iff _ _)) by lra. reflexivity.
Qed.
