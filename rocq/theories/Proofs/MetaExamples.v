(** Concrete cases for the meta smoothers, and a counterexample. *)
From Coq Require Import ZArith QArith Qreals List Bool Reals Lia Lra.
From Verif.Model Require Import Num LexBins Train SmootherChoice MetaSmoothers.
From Verif.Spec Require Import LexSpec MetaSpec.
From Verif.Proofs Require Import NumFacts TrainFacts LexFacts PredictFacts MetaFacts CutFacts.
Import ListNotations.
Local Open Scope R_scope.

(** A smoother that predicts the sum of the targets everywhere. *)
Definition total_alg : smoothing_alg := {|
  state := R;
  fit := fun _ y => sumR y;
  predict := fun st rows => map (fun _ => Some st) rows;
  rows_after := fun _ rows => rows
|}.
Lemma total_rowwise : rowwise total_alg (fun st _ => Some st).
Proof. intros st rows. reflexivity. Qed.
Lemma total_pure : leaves_rows total_alg.
Proof. intros st rows. reflexivity. Qed.

Definition bin (x : Z) (w : Q) : srow := {| r_x := [Fin (inject_Z x)]; r_w := w; r_u := 1 |}.
Definition ex_rows : list srow := [bin 0 2; bin 1 0; bin 2 1].

Lemma ex_rows_weight : 0 < sumR (weights_of ex_rows).
Proof. unfold weights_of, ex_rows, bin, sumR. cbn. unfold Q2R. cbn. lra. Qed.

Lemma holds_one x k : holds_tuple [Fin (inject_Z x)] [k] <-> x = k.
Proof.
  split.
  - intro H. inversion H as [|? ? ? ? (q & E & Q) _]; subst. injection E as <-. now apply inject_Z_injective.
  - intros <-. constructor; [|constructor]. exists (inject_Z x). split; [reflexivity|apply Qeq_refl].
Qed.

Lemma ex_rows_bins : bins_of [3%Z] ex_rows.
Proof. unfold bins_of, ex_rows. change (arange_multi [3%Z]) with [[0%Z];[1%Z];[2%Z]]. repeat (constructor; [now apply holds_one|]). constructor. Qed.

Lemma ex_within : within_bins [3%Z] [Fin (5 # 2)] /\ ~ within_bins [3%Z] [Fin 3].
Proof.
  split.
  - constructor; [|constructor]. exists (5 # 2). split; [reflexivity|]. split; discriminate.
  - intro H. inversion H as [|? ? ? ? (q & E & [_ Q]) _]; subst. injection E as <-. now apply Q.
Qed.

(** The bin without weight, a bin with weight, a bin that is too large. *)
Lemma ex_cut :
  let S := regression_type_smoother 1 Discontinuous total_alg in
  predict S (fit S ex_rows [1; 2; 3]) [[Fin 0]; [Fin 1]; [Fin 2]; [Fin 3]; [NaN]] =
  [Some 6; None; Some 6; None; None].
Proof. cbn -[sumR]. replace (sumR [1; 2; 3]) with 6 by (unfold sumR; cbn; lra). reflexivity. Qed.

(** Sections *)
Lemma ex_section :
  exists st, section_fit 0 (1 # 10) total_alg total_alg ex_rows [1; 2; 3] = Some st /\
    section_predict 0 (1 # 10) total_alg total_alg None st [[Fin 0]; [Fin 2]; [NaN]] = [Some 1; Some 5; Some 5].
Proof. eexists. split; [reflexivity|]. cbn -[sumR]. replace (sumR [1]) with 1 by (unfold sumR; cbn; lra).
  replace (sumR [2; 3]) with 5 by (unfold sumR; cbn; lra). reflexivity. Qed.

Lemma section_representation_ignored :
  exists sp e lo up X y rows (r : R), X <> [] /\ length X = length y /\
    exists st, section_fit sp e lo up X y = Some st /\
      section_predict sp e lo up (Some r) st rows = map (fun _ => None) rows /\ rows <> [].
Proof.
  exists 5%Q, (1 # 10), total_alg, total_alg, ex_rows, [1; 2; 3], [[Fin 7]], 1.
  split; [discriminate|]. split; [reflexivity|].
  eexists. split; [reflexivity|]. split; [reflexivity|discriminate].
Qed.

(** Groups *)
Definition grp (k x : Z) (w : Q) : grow := {| g_key := [k]; g_row := bin x w |}.
Definition ex_groups : list grow := [grp 0 0 2; grp 0 1 0; grp 1 0 0; grp 1 1 0].
Lemma ex_group :
  group_by_predict total_alg (group_by_fit true total_alg ex_groups [1; 2; 3; 4])
    [([0%Z], [Fin 0]); ([1%Z], [Fin 0]); ([2%Z], [Fin 0])] = [Some 3; None; None] /\
  group_by_predict total_alg (group_by_fit false total_alg ex_groups [1; 2; 3; 4])
    [([0%Z], [Fin 0]); ([1%Z], [Fin 0]); ([2%Z], [Fin 0])] = [Some 3; Some 7; None].
Proof.
  split; cbn -[sumR]; replace (sumR [1; 2]) with 3 by (unfold sumR; cbn; lra); [reflexivity|].
  replace (sumR [3; 4]) with 7 by (unfold sumR; cbn; lra). reflexivity.
Qed.

Lemma part_result_same {A} s f (g : A -> srow) p X y X' y' row :
  part_rows p X y = part_rows p X' y' -> part_targets p X y = part_targets p X' y' ->
  part_result s f g p X y row = part_result s f g p X' y' row.
Proof. unfold part_result. now intros -> ->. Qed.

Lemma section_isolated sp e lo up nr X y X' y' fl fu st st' row :
  length X = length y -> length X' = length y' -> rowwise lo fl -> rowwise up fu ->
  section_fit sp e lo up X y = Some st -> section_fit sp e lo up X' y' = Some st' ->
  part_rows (fun r => Bool.eqb (lower_row sp e (r_x r)) (lower_row sp e row)) X y =
  part_rows (fun r => Bool.eqb (lower_row sp e (r_x r)) (lower_row sp e row)) X' y' ->
  part_targets (fun r => Bool.eqb (lower_row sp e (r_x r)) (lower_row sp e row)) X y =
  part_targets (fun r => Bool.eqb (lower_row sp e (r_x r)) (lower_row sp e row)) X' y' ->
  section_predict sp e lo up nr st [row] = section_predict sp e lo up nr st' [row].
Proof.
  intros L L' Wl Wu E E' R1 R2.
  assert (NE : X <> []) by (intros ->; discriminate E).
  assert (NE' : X' <> []) by (intros ->; discriminate E').
  destruct (section_result sp e lo up nr X y [row] fl fu L NE Wl Wu) as (s1 & E1 & P1).
  destruct (section_result sp e lo up nr X' y' [row] fl fu L' NE' Wl Wu) as (s2 & E2 & P2).
  rewrite E in E1. rewrite E' in E2. injection E1 as <-. injection E2 as <-.
  rewrite P1, P2. cbn [map]. f_equal. clear P1 P2.
  assert (X1 : forall b, (forall r : srow, (if b : bool then lower_row sp e (r_x r) else negb (lower_row sp e (r_x r))) = Bool.eqb (lower_row sp e (r_x r)) b)).
  { intros [] r; now destruct (lower_row sp e (r_x r)). }
  assert (PE : forall (p q : srow -> bool) X y, (forall r, p r = q r) -> part_rows p X y = part_rows q X y /\ part_targets p X y = part_targets q X y).
  { intros p q X0 y0 H. unfold part_rows, part_targets. rewrite (filter_ext _ (fun r => q (fst r))) by (intro; apply H). auto. }
  destruct (lower_row sp e row) eqn:B.
  - destruct (PE _ _ X y (X1 true)) as [Q1 Q2]. destruct (PE _ _ X' y' (X1 true)) as [Q3 Q4].
    cbn [Bool.eqb] in *. apply part_result_same; congruence.
  - destruct (PE _ _ X y (X1 false)) as [Q1 Q2]. destruct (PE _ _ X' y' (X1 false)) as [Q3 Q4].
    cbn [Bool.eqb] in *. apply part_result_same; congruence.
Qed.

Lemma group_isolated (drop : bool) s f X y X' y' key row : length X = length y -> length X' = length y' -> rowwise s f ->
  part_rows (in_group key) X y = part_rows (in_group key) X' y' ->
  part_targets (in_group key) X y = part_targets (in_group key) X' y' ->
  group_by_predict s (group_by_fit drop s X y) [(key, row)] = group_by_predict s (group_by_fit drop s X' y') [(key, row)].
Proof.
  intros L L' W R1 R2. rewrite (group_result drop s f X y _ L W), (group_result drop s f X' y' _ L' W).
  cbn [map fst snd]. f_equal.
  assert (WG : forall (X : list grow) (y : list R), length X = length y ->
    weight_of_group key X = fold_right (fun r a => r_w (g_row r) + a)%Q 0%Q (part_rows (in_group key) X y)).
  { clear. intros X y L. unfold part_rows. revert y L. induction X as [|r X IH]; intros [|v y] L; try discriminate; [reflexivity|].
    unfold weight_of_group. cbn [fold_right combine filter fst]. fold (weight_of_group key X).
    rewrite (IH y) by (now injection L). destruct (in_group key r); reflexivity. }
  rewrite (WG X y L), (WG X' y' L'), R1.
  destruct (negb drop || _); [|reflexivity]. now apply part_result_same.
Qed.
