(** Plots whose vertical axis can be computed (C123). *)
From Coq Require Import ZArith QArith Qabs List Bool Reals Lia Lra.
From Verif.Model Require Import Num Train PlotAxis.
From Verif.Spec Require Import AxisSpec.
From Verif.Proofs Require Import AxisFacts.
Import ListNotations.
Local Open Scope R_scope.

Lemma int_part_is x z : IZR z <= x < IZR z + 1 -> Int_part x = z.
Proof.
  intros (A & B). destruct (base_Int_part x) as (C & D).
  assert (H1 : (z < Int_part x + 1)%Z) by (apply lt_IZR; rewrite plus_IZR; lra).
  assert (H2 : (Int_part x < z + 1)%Z) by (apply lt_IZR; rewrite plus_IZR; lra). lia.
Qed.
Lemma floor_is x z : IZR z <= x < IZR z + 1 -> floor_real x = z.
Proof. apply int_part_is. Qed.
Lemma ceil_is x z : IZR z - 1 < x <= IZR z -> ceil_real x = z.
Proof.
  intros (A & B). unfold ceil_real. assert (E : Int_part (- x) = (- z)%Z) by (apply int_part_is; rewrite opp_IZR; lra). lia.
Qed.
Lemma axis_ends fuel f u a : get_y_axis fuel f u = Some a ->
  a_low a = floor_real (fst (y_limits f u)) /\ a_high a = ceil_real (snd (y_limits f u)).
Proof.
  unfold get_y_axis. cbv zeta. destruct (number_of_ticks fuel _) as [n|]; [|discriminate]. intro H. inversion H. split; reflexivity.
Qed.

Ltac minmax := unfold Rmin, Rmax; repeat match goal with |- context [Rle_dec ?a ?b] => lazymatch a with context [Rle_dec] => fail | _ => lazymatch b with context [Rle_dec] => fail | _ => destruct (Rle_dec a b); try (exfalso; lra) end end end; try lra.

(** Three bins and the missing bin; everything fits. *)
Definition good_factors : list R := [1 / 2; 1; 2; 1].
Definition good_smoothed : list R := [6 / 10; 1; 18 / 10; 1].
Definition good_errors : list R := [1 / 10; 1 / 10; 1 / 10; 0].
Lemma good_hypotheses : good_factors <> [] /\ length good_errors = length good_factors /\ positive good_errors /\
  (2 <= 2)%nat /\ (3 < length good_factors)%nat.
Proof.
  split; [discriminate|]. split; [reflexivity|]. split; [|cbn; lia]. unfold positive, good_errors. repeat constructor; lra.
Qed.

(** The first bin has the largest factor and a large uncertainty. *)
Definition cut_factors : list R := [19 / 10; 1; 1].
Definition cut_errors : list R := [9 / 10; 0; 0].
Lemma cut_limits : y_limits [1; 19 / 10; 1] (Some (cut_errors, cut_errors)) = (1 / 10, 19 / 10).
Proof.
  unfold y_limits, cut_errors. cbn [removelast last map2 minimum maximum fold_left]. f_equal; minmax.
Qed.
Lemma cut_range : minimum (cut_factors ++ cut_factors ++ []) = 1 /\ maximum (cut_factors ++ cut_factors ++ []) = 19 / 10.
Proof. unfold cut_factors. cbn [app minimum maximum fold_left]. split; minmax. Qed.

Theorem bars_cut : exists factors smoothed errors, factors <> [] /\ length errors = length factors /\ positive errors /\
  exists k, In k (drawn false (seq 0 (length factors))) /\
  forall a, drawn_with (fun fuel => plot_axis fuel true factors smoothed [] errors errors) a ->
  ~ on_axis a (nth k factors 0 + nth k errors 0).
Proof.
  exists cut_factors, cut_factors, cut_errors. split; [discriminate|]. split; [reflexivity|].
  split; [unfold positive, cut_errors; repeat constructor; lra|]. exists 0%nat. split; [left; reflexivity|].
  intros a (steps & H). specialize (H steps (le_n _)). unfold plot_axis in H. destruct cut_range as (E1 & E2). cbv zeta in H.
  rewrite E1, E2 in H. change (match cut_factors with _ :: _ :: rest => ([1; 19 / 10] ++ rest, (cut_errors, cut_errors)) | _ => ([1; 19 / 10], (cut_errors ++ cut_errors, cut_errors ++ cut_errors)) end)
    with ([1; 19 / 10; 1], (cut_errors, cut_errors)) in H. cbv iota beta in H.
  destruct (axis_ends _ _ _ _ H) as (_ & HI). rewrite cut_limits in HI. cbn [snd] in HI.
  rewrite (ceil_is (19 / 10) 2) in HI by lra. unfold on_axis. rewrite HI. cbn [nth cut_factors cut_errors]. lra.
Qed.

(** Of the bin for missing values only the factor is taken into account. *)
Definition flat : list R := [1; 1; 1].
Definition missing_errors : list R := [0; 0; 5].
Lemma flat_range : minimum (flat ++ flat ++ []) = 1 /\ maximum (flat ++ flat ++ []) = 1.
Proof. unfold flat. cbn [app minimum maximum fold_left]. split; minmax. Qed.
Lemma flat_limits e : y_limits flat (Some ([0; 0; e], [0; 0; e])) = (1, 1).
Proof. unfold y_limits, flat. cbn [removelast last map2 minimum maximum fold_left]. f_equal; minmax. Qed.
Lemma flat_axis e fuel a : plot_axis fuel true flat flat [] [0; 0; e] [0; 0; e] = Some a -> a_low a = 1%Z /\ a_high a = 1%Z.
Proof.
  unfold plot_axis. destruct flat_range as (E1 & E2). cbv zeta. rewrite E1, E2.
  change (match flat with _ :: _ :: rest => ([1; 1] ++ rest, ([0; 0; e], [0; 0; e])) | _ => ([1; 1], ([0; 0; e] ++ [0; 0; e], [0; 0; e] ++ [0; 0; e])) end)
    with (flat, ([0; 0; e], [0; 0; e])). cbv iota beta. intro H.
  destruct (axis_ends _ _ _ _ H) as (LO & HI). rewrite flat_limits in LO, HI. cbn [fst snd] in LO, HI.
  rewrite (floor_is 1 1) in LO by lra. rewrite (ceil_is 1 1) in HI by lra. auto.
Qed.

Theorem missing_bar_cut : exists factors smoothed errors, factors <> [] /\ length errors = length factors /\ positive errors /\
  exists k, In k (drawn true (seq 0 (length factors))) /\
  forall a, drawn_with (fun fuel => plot_axis fuel true factors smoothed [] errors errors) a ->
  ~ on_axis a (nth k factors 0 + nth k errors 0).
Proof.
  exists flat, flat, missing_errors. split; [discriminate|]. split; [reflexivity|].
  split; [unfold positive, missing_errors; repeat constructor; lra|]. exists 2%nat. split; [cbn; auto|].
  intros a (steps & H). specialize (H steps (le_n _)). destruct (flat_axis _ _ _ H) as (_ & HI).
  unfold on_axis. rewrite HI. cbn [nth flat missing_errors]. lra.
Qed.

(** Without any influence of the feature all ticks are at the same place. *)
Theorem ticks_collapse : exists factors smoothed errors, factors <> [] /\ length errors = length factors /\ positive errors /\
  exists a, drawn_with (fun fuel => plot_axis fuel true factors smoothed [] errors errors) a /\
  length (a_ticks a) = 21%nat /\ forall t, In t (a_ticks a) -> (t == 1)%Q.
Proof.
  exists flat, flat, [0; 0; 0]. assert (P : positive [0; 0; 0]) by (unfold positive; repeat constructor; lra).
  split; [discriminate|]. split; [reflexivity|]. split; [exact P|].
  destruct (plot_covers true flat flat [] [0; 0; 0] [0; 0; 0]) as (a & D & _); [discriminate|reflexivity|reflexivity|exact P|exact P|].
  exists a. split; [exact D|]. destruct D as (steps & D). specialize (D steps (le_n _)).
  destruct (flat_axis _ _ _ D) as (LO & HI). unfold plot_axis in D. cbv zeta in D. cbn [flat] in D.
  assert (T : exists fuel, a_ticks a = tick_positions 1 1 21 /\ fuel = steps).
  { exists steps. split; [|reflexivity]. unfold get_y_axis in D. cbv zeta in D.
    set (l := floor_real _) in D. set (h := ceil_real _) in D.
    destruct (number_of_ticks steps (inject_Z (h - l))) as [n|] eqn:E; [|discriminate D]. inversion D; subst a. cbn [a_low a_high a_ticks] in *.
    rewrite LO, HI in E |- *. cbn in E. inversion E. reflexivity. }
  destruct T as (_ & T & _). rewrite T. split; [reflexivity|]. vm_compute. intros t H. repeat destruct H as [<-|H]; try reflexivity. destruct H.
Qed.

(** A plot whose axis is computed: from 0 to 3 in sixteen ticks. *)
Lemma good_axis : exists a, drawn_with (fun fuel => plot_axis fuel true good_factors good_smoothed [] good_errors good_errors) a /\
  a_low a = 0%Z /\ a_high a = 3%Z /\ length (a_ticks a) = 16%nat.
Proof.
  assert (MN : minimum (good_factors ++ good_smoothed ++ []) = 1 / 2) by (unfold good_factors, good_smoothed; cbn [app minimum fold_left]; minmax).
  assert (MX : maximum (good_factors ++ good_smoothed ++ []) = 2) by (unfold good_factors, good_smoothed; cbn [app maximum fold_left]; minmax).
  assert (LI : y_limits [1 / 2; 2; 2; 1] (Some (good_errors, good_errors)) = (4 / 10, 21 / 10)).
  { unfold y_limits, good_errors. cbn [removelast last map2 minimum maximum fold_left]. f_equal; minmax. }
  exists {| a_low := 0; a_high := 3; a_ticks := tick_positions 0 3 16; a_labels := map format_tick (tick_positions 0 3 16) |}.
  split; [|split; [reflexivity|split; reflexivity]].
  exists 0%nat. intros fuel _. unfold plot_axis. cbv zeta. rewrite MN, MX.
  change (match good_factors with _ :: _ :: rest => ([1 / 2; 2] ++ rest, (good_errors, good_errors)) | _ => ([1 / 2; 2], (good_errors ++ good_errors, good_errors ++ good_errors)) end)
    with ([1 / 2; 2; 2; 1], (good_errors, good_errors)). cbv iota beta. unfold get_y_axis. cbv zeta. rewrite LI. cbn [fst snd].
  rewrite (floor_is (4 / 10) 0) by lra. rewrite (ceil_is (21 / 10) 3) by lra.
  destruct fuel; reflexivity.
Qed.
