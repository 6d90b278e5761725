(** Examples for targets in another unit. *)
From Coq Require Import ZArith QArith List Bool Reals Lra Lia.
From Verif.Model Require Import Num LexBins Train Predict Link Estimators Gbs WholeFit Regularize BinSmoothers.
From Verif.Spec Require Import DataSpec TargetUnitSpec.
From Verif.Proofs Require Import LinkFacts ShiftFacts TrainFacts TrainExamples WholeExamples DescentExamples CellExamples MirrorFacts TargetUnitFacts.
Import ListNotations.
Local Open Scope R_scope.

(** ** Smoothers *)
Lemma unit_bin_values : unit_smoother bin_values.
Proof. intros b centres counts us values k HB. unfold bin_values. apply nth_error_map. Qed.
Lemma unit_cut s : unit_smoother s -> unit_smoother (cut_unseen s).
Proof. intros H b centres counts us values k HB. unfold cut_unseen. destruct (Reqb _ 0); auto. Qed.
Lemma unit_normalised s : unit_smoother s -> unit_smoother (normalised s).
Proof.
  intros H b centres counts us values k HB. unfold normalised. cbv zeta.
  assert (E : bins_norm counts (map (Rmult b) values) = b * bins_norm counts values).
  { unfold bins_norm. cbv zeta. destruct (Rltb 0 (sumR counts)); [|ring]. rewrite scl_mul_l, scl_sum. unfold Rdiv. ring. }
  rewrite E. set (c := bins_norm counts values). clearbody c.
  replace (map (fun v => v - b * c) (map (Rmult b) values)) with (map (Rmult b) (map (fun v => v - c) values))
    by (rewrite !map_map; apply map_ext; intro; ring).
  rewrite (H b) by auto. destruct (s centres counts us _ k); cbn; auto. f_equal. ring.
Qed.
Theorem unit_smoothers : unit_smoother bin_values /\
  (forall s, unit_smoother s -> unit_smoother (cut_unseen s) /\ unit_smoother (normalised s)).
Proof. split; [exact unit_bin_values|]. intros s H. split; [apply unit_cut|apply unit_normalised]; auto. Qed.

(** Values closer than 1e-8 are left alone, whatever their unit. *)
Theorem weighted_mean_unit : ~ unit_smoother (weighted_mean_bins None).
Proof.
  intro H. specialize (H 1000000000 [] [] [1; 1] [0; 1 / 1000000000] 0%nat ltac:(lra)).
  unfold weighted_mean_bins, regularize_to_error_weighted_mean in H. cbn [map length Nat.eqb negb] in H.
  assert (A1 : allclose [0; 1 / 1000000000] 0 = true).
  { unfold allclose, isclose. cbn [forallb]. rewrite !andb_true_iff. split; [|split; auto]; apply Rleb_iff.
    - rewrite Rminus_0_r, Rabs_R0. lra.
    - rewrite Rminus_0_r, Rabs_R0, Rabs_pos_eq by lra. lra. }
  replace (1000000000 * 0) with 0 in H by ring. replace (1000000000 * (1 / 1000000000)) with 1 in H by field.
  replace (1000000000 * 1) with 1000000000 in H by ring.
  assert (A2 : allclose [0; 1] 0 = false).
  { unfold allclose, isclose. cbn [forallb]. rewrite (proj2 (Rleb_above (Rabs (1 - 0)) _)).
    - rewrite andb_false_r. auto.
    - rewrite Rminus_0_r, Rabs_R0, Rabs_R1. lra. }
  rewrite A1, A2 in H. cbn [existsb] in H.
  rewrite (proj2 (Reqb_false_iff 1000000000 0)) in H by lra. cbn [orb map sumR map2 nth option_map] in H.
  injection H as H.
  set (w := 1 / (1000000000 * 1000000000)) in H.
  assert (W : 0 < w) by (unfold w; lra).
  replace ((w * 0 + (w * 1 + 0)) / (w + (w + 0))) with (1 / 2) in H by (field; lra).
  replace ((w * ((0 - 1 / 2) * ((0 - 1 / 2) * 1)) + (w * ((1 - 1 / 2) * ((1 - 1 / 2) * 1)) + 0)) / (w + (w + 0))) with (1 / 4) in H by (field; lra).
  clearbody w. revert H. replace (1000000000 * 0) with 0 by ring. intro H.
  assert (P : 0 < (w * 0 + 1 / (1 / 4) * (1 / 2)) / (w + 1 / (1 / 4))) by (apply Rdiv_lt_0_compat; lra).
  lra.
Qed.

(** ** The location regressor *)
Theorem location_unit gm bppf erfinv bad prior gs cfg cfg' rate fuel fuel' D b m m' : b <> 1 ->
  whole_fit gm bppf erfinv bad LocationRegressor prior gs cfg rate fuel D = Trained m ->
  whole_fit gm bppf erfinv bad LocationRegressor prior gs cfg' rate fuel' (map (unit_row b) D) = Trained m' ->
  o_scale m' <> b * o_scale m.
Proof.
  intros B E E'. rewrite whole_is_from in E, E'.
  assert (K : forall s c f d D0 x, MirrorSpec.fit_from gm bppf erfinv bad LocationRegressor prior gs c rate f s D0 = Trained x -> d = o_scale x -> d = s).
  { intros s c f d D0 x H ->. unfold MirrorSpec.fit_from in H. destruct (train _ _ _ _ _ _ _ _ _ _ _ _ _) as [[st|e]|]; try discriminate.
    inversion H. reflexivity. }
  destruct (kind_scale LocationRegressor (map x_y D) (map x_w D)) as [s|] eqn:S; [|discriminate].
  destruct (kind_scale LocationRegressor (map x_y (map (unit_row b) D)) _) as [s'|] eqn:S'; [|discriminate].
  rewrite (K _ _ _ _ _ _ E eq_refl), (K _ _ _ _ _ _ E' eq_refl). clear K E E'.
  rewrite !map_map in S'. cbn [unit_row x_w x_y] in S'. rewrite <- (map_map x_y (Rmult b)) in S'. change (map (fun x => x_w x) D) with (map x_w D) in S'.
  cbn [kind_scale kind_link] in S, S'. unfold global_scale, weighted_mean in S, S'.
  destruct (Reqb (sumR (map x_w D)) 0); [discriminate|]. rewrite scl_mul_l, scl_sum in S'. cbn [link_func] in S, S'.
  injection S as <-. injection S' as <-. set (a := sumR _). set (c := sumR (map x_w D)). unfold Rdiv. rewrite Rmult_assoc. set (q := a * / c). clearbody q.
  intro H. apply B. lra.
Qed.

(** ** A training *)
Lemma noisy_noisy : noisy_targets noisy.
Proof.
  exists (w_row 0%Q 101 1), (w_row 0%Q (-99) 1). cbn [noisy In w_row x_bins x_prior x_y x_w].
  repeat (split; [auto; lra|]). lra.
Qed.
Theorem unit_case : forall gm bppf erfinv bad, 
  Forall (fun s => 0 <= x_w s) noisy /\ noisy_targets noisy /\ unit_smoother (g_smoother plain_group) /\
  c_log (n_cfg 2) = false /\ c_minfactor (n_cfg 2) < 100 /\ 100 * c_minfactor (n_cfg 2) < 100 /\
  exists t, whole_fit gm bppf erfinv bad (GBSRegressor 0) false [plain_group] (n_cfg 2) ex_rate 2 noisy = Trained t /\
    whole_fit gm bppf erfinv bad (GBSRegressor 0) false [plain_group] (unit_settings 100 (n_cfg 2)) ex_rate 2
      (map (unit_row 100) noisy) = Trained (unit_model 100 t).
Proof.
  intros gm bppf erfinv bad. destruct (cell_case gm bppf erfinv bad) as (_ & W & _ & _ & SM & _ & _ & _ & _ & t & E & _).
  assert (U : unit_smoother (g_smoother plain_group)) by (rewrite SM; exact unit_bin_values).
  assert (M1 : c_minfactor (n_cfg 2) < 100) by (cbn; lra).
  assert (M2 : 100 * c_minfactor (n_cfg 2) < 100) by (cbn; lra).
  split; [exact W|]. split; [exact noisy_noisy|]. split; [exact U|]. split; [reflexivity|]. split; [exact M1|]. split; [exact M2|].
  exists t. split; [exact E|].
  pose proof (proj1 (gbs_unit gm bppf erfinv bad 0 false [plain_group] (n_cfg 2) ex_rate 2 noisy 100 ltac:(lra) ltac:(lra)
    (proj1 (Forall_forall _ _) W) noisy_noisy eq_refl M1 M2 ltac:(intros g [<-|[]]; exact U))) as M.
  rewrite E in M. exact M.
Qed.
