(** The first iterations of whole trainings with hierarchical groups. *)
From Coq Require Import ZArith QArith List Bool Arith Lia Reals Lra.
From Verif.Model Require Import Num LexBins Train Predict Link Estimators WholeFit.
From Verif.Spec Require Import TrainSpec HierSpec.
From Verif.Proofs Require Import TrainFacts TrainHistory HierFacts.
Import ListNotations.
Local Open Scope R_scope.

Lemma bind_hier_at D P : forall gs i j, (forall m, nth (j + m) P 0%nat = nth m (hier_positions i gs) 0%nat) ->
  filter f_hier (bind_groups D i gs) =
  bind_groups (map (fun s => {| x_bins := fun j => x_bins s (nth j P 0%nat); x_prior := x_prior s; x_y := x_y s; x_w := x_w s |}) D) j (filter g_hier gs).
Proof.
  induction gs as [|g gs IH]; intros i j H; cbn [bind_groups filter]; [reflexivity|].
  cbn [hier_positions] in H. unfold bind_group at 1. cbn [f_hier]. destruct (g_hier g) eqn:E.
  - cbn [bind_groups]. f_equal.
    + unfold bind_group. rewrite map_map. cbn [x_bins]. specialize (H 0%nat). rewrite Nat.add_0_r in H. cbn [nth] in H. rewrite H, E. reflexivity.
    + apply IH. intro m. specialize (H (S m)). cbn [nth] in H. rewrite <- H. f_equal. lia.
  - apply IH. exact H.
Qed.
Lemma bind_hier D gs : filter f_hier (bind_groups D 0 gs) = bind_groups (hier_rows gs D) 0 (hier_groups gs).
Proof. apply (bind_hier_at D (hier_positions 0 gs) gs 0 0). reflexivity. Qed.
Lemma kept_states D : forall gs i sl, kept (bind_groups D i gs) sl = hier_states gs sl.
Proof.
  induction gs as [|g gs IH]; intros i [|s sl]; try reflexivity. unfold kept, hier_states in *. cbn [bind_groups combine filter fst]. unfold bind_group. cbn [f_hier].
  destruct (g_hier g); cbn [map snd]; rewrite IH; reflexivity.
Qed.
Lemma hier_of_bind D : forall gs i, forallb f_hier (bind_groups D i gs) = forallb g_hier gs.
Proof. induction gs as [|g gs IH]; intro i; cbn; [reflexivity|]. rewrite IH. reflexivity. Qed.

Lemma nth_bind D g : forall gs a i, nth_error gs i = Some g -> nth_error (bind_groups D a gs) i = Some (bind_group D (a + i) g).
Proof.
  induction gs as [|h gs IH]; intros a [|i] H; cbn in *; try discriminate; [injection H as ->; rewrite Nat.add_0_r; reflexivity|].
  rewrite (IH (S a) i H). do 2 f_equal. lia.
Qed.
Section Whole.
Variables (gm : R -> R) (bppf : R -> R -> R -> R) (erfinv : R -> R) (bad : R) (k : kind) (prior : bool) (gs : list group)
  (cfg : settings) (rate : nat -> nat -> R) (D : list WholeFit.sample).
Let F := bind_groups D 0 gs.
Let F' := bind_groups (hier_rows gs D) 0 (hier_groups gs).
Let y := map x_y D.
Let w := map x_w D.
Lemma agree_at : forall rest i j gdone, gs = gdone ++ rest -> length gdone = i -> length (filter g_hier gdone) = j ->
  Agree
    (fun i _ p => map (estimate_value bad) (group_estimates gm bppf erfinv k F y w i p))
    (fun i _ p => map (estimate_value bad) (group_estimates gm bppf erfinv k F' y w i p))
    (fun i _ p => group_smoother gm bppf erfinv bad k gs F y w i p)
    (fun i _ p => group_smoother gm bppf erfinv bad k (hier_groups gs) F' y w i p)
    (kind_calibration k F w) (kind_calibration k F' w) rate (fun it j => rate it (nth j (hier_positions 0 gs) 0%nat)) i j (bind_groups D i rest).
Proof.
  induction rest as [|g rest IH]; intros i j gdone E L1 L2; [constructor|]. cbn [bind_groups].
  assert (Hg : nth_error gs i = Some g) by (rewrite E, nth_error_app2, L1, Nat.sub_diag by lia; reflexivity).
  assert (Nb : nth_error F i = Some (bind_group D i g)).
  { unfold F. exact (nth_bind D g gs 0%nat i Hg). }
  destruct (g_hier g) eqn:Eg.
  - assert (Hj : nth_error (hier_groups gs) j = Some g).
    { unfold hier_groups. rewrite E, filter_app. cbn [filter]. rewrite Eg. rewrite nth_error_app2, L2, Nat.sub_diag by lia. reflexivity. }
    assert (Np : forall gdone a, nth (length (filter g_hier gdone)) (hier_positions a (gdone ++ g :: rest)) 0%nat = (a + length gdone)%nat).
    { clear - Eg. induction gdone as [|h gdone IH]; intro a; cbn [hier_positions app filter length]; [rewrite Eg; cbn; lia|].
      destruct (g_hier h); cbn [length nth]; rewrite IH; lia. }
    assert (Nf : nth_error F' j = Some (bind_group D i g)).
    { unfold F'. rewrite <- bind_hier. unfold F in Nb. clear - Nb E L1 L2 Eg.
      assert (G : forall gdone a, nth_error (filter f_hier (bind_groups D a (gdone ++ g :: rest))) (length (filter g_hier gdone)) = Some (bind_group D (a + length gdone) g)).
      { clear - Eg. induction gdone as [|h gdone IH]; intro a; cbn [app bind_groups filter length].
        - unfold bind_group at 1. cbn [f_hier]. rewrite Eg. cbn. rewrite Nat.add_0_r. reflexivity.
        - unfold bind_group at 1. cbn [f_hier]. destruct (g_hier h); cbn [length nth_error]; rewrite IH; do 2 f_equal; lia. }
      rewrite E, <- L2, <- L1. exact (G gdone 0%nat). }
    apply agree_keep; [unfold bind_group; exact Eg| |].
    + split; [|split; [|split]].
      * unfold group_estimates. rewrite Nb, Nf. reflexivity.
      * unfold group_smoother, group_estimates. rewrite Nb, Nf, Hg, Hj. reflexivity.
      * unfold kind_calibration. destruct k; try reflexivity. unfold location_calibration. rewrite Nb, Nf. reflexivity.
      * intro it. f_equal. rewrite <- L1, <- L2, E. symmetry. exact (Np gdone 0%nat).
    + apply (IH (S i) (S j) (gdone ++ [g])); [rewrite <- app_assoc; exact E|rewrite app_length; cbn; lia|rewrite filter_app, app_length; cbn; rewrite Eg; cbn; lia].
  - apply agree_drop; [unfold bind_group; exact Eg|].
    apply (IH (S i) j (gdone ++ [g])); [rewrite <- app_assoc; exact E|rewrite app_length; cbn; lia|rewrite filter_app, app_length; cbn; rewrite Eg; cbn; lia].
Qed.

Lemma rows_y : map x_y (hier_rows gs D) = y. Proof. unfold hier_rows. rewrite map_map. reflexivity. Qed.
Lemma rows_w : map x_w (hier_rows gs D) = w. Proof. unfold hier_rows. rewrite map_map. reflexivity. Qed.
Lemma rows_linked : linked_column k prior (hier_rows gs D) = linked_column k prior D.
Proof. unfold linked_column, hier_rows. rewrite map_map. reflexivity. Qed.
Lemma rows_length : length (hier_rows gs D) = length D. Proof. apply map_length. Qed.

Theorem hier_phase scale offset st : c_hier cfg = true ->
  training_state gm bppf erfinv bad k prior gs cfg rate D scale offset st -> (t_iter st <= c_thier cfg)%nat ->
  exists st', training_state gm bppf erfinv bad k prior (hier_groups gs) cfg (fun it j => rate it (nth j (hier_positions 0 gs) 0%nat)) (hier_rows gs D) scale offset st' /\
    same_progress st st' /\ t_feats st' = hier_states gs (t_feats st).
Proof.
  intros Hh H I. unfold training_state in *. cbv zeta in *. rewrite rows_y, rows_w, rows_linked, rows_length.
  destruct (phase_restricts cfg _ _ _ _ _ _ _ _ _ Hh _ _ (agree_at gs 0 0 [] eq_refl eq_refl eq_refl) st H I) as (tt & T1 & T2 & T3).
  exists tt. split; [|split; [exact T2|rewrite T3; apply kept_states]]. rewrite bind_hier in T1. exact T1.
Qed.
Theorem hier_phase_back scale offset st' : c_hier cfg = true ->
  training_state gm bppf erfinv bad k prior (hier_groups gs) cfg (fun it j => rate it (nth j (hier_positions 0 gs) 0%nat)) (hier_rows gs D) scale offset st' ->
  (t_iter st' <= c_thier cfg)%nat -> t_diverging st' = 0%nat ->
  exists st, training_state gm bppf erfinv bad k prior gs cfg rate D scale offset st /\
    same_progress st st' /\ t_feats st' = hier_states gs (t_feats st).
Proof.
  intros Hh H I Dv. unfold training_state in *. cbv zeta in *. rewrite rows_y, rows_w, rows_linked, rows_length in H. rewrite <- bind_hier in H.
  pose proof (agree_at gs 0 0 [] eq_refl eq_refl eq_refl) as A. unfold F, F' in A. rewrite <- bind_hier in A.
  destruct (phase_extends cfg _ _ _ _ _ _ _ _ _ Hh _ _ A st' H I (or_intror Dv)) as (st & T1 & T2 & T3).
  exists st. split; [exact T1|]. split; [exact T2|]. rewrite T3. apply kept_states.
Qed.
End Whole.
