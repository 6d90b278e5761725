(** The location regressor with missing values that are not learned. *)
From Coq Require Import ZArith QArith List Bool Reals Lia Lra Psatz.
From Verif.Model Require Import Num LexBins Train Predict Link Estimators Regularize BinSmoothers WholeFit.
From Verif.Spec Require Import TrainSpec DataSpec LexSpec PredictSpec LinkSpec EstimatorSpec RegularizeSpec InsampleSpec CellSpec LocationCellSpec.
From Verif.Proofs Require Import TrainFacts TrainHistory TrainExamples LexFacts PredictFacts NeutralFacts ImportanceFacts LinkFacts EstimatorFacts LocationFacts CentredFacts InsampleFacts PipeMonotone TotalFacts DescentFacts CellFacts WholeExamples CellExamples.
Import ListNotations.
Local Open Scope R_scope.

Section Missing.
Variables (gm : R -> R) (bppf : R -> R -> R -> R) (erfinv : R -> R) (bad : R).
Variables (g : group) (cfg : settings) (rate : nat -> nat -> R) (D : list sample).
Hypothesis HB : binned_rows [g] D.
Hypothesis HW : Forall (fun s => 0 < x_w s) D.
Hypothesis HM : g_mnl g = true.
Hypothesis Hlog : c_log cfg = false.
Hypothesis Hagg : c_aggregate cfg = true.
Variable complete : sample -> bool.
Hypothesis HC : forall s, In s D -> complete s = true <-> ~ missing_entry (x_bins s 0%nat).
Hypothesis HE : exists s, In s D /\ complete s = true.
Notation y := (map x_y D).
Notation w := (map x_w D).
Notation f := (bind_group D 0 g).
Notation kd := LocationRegressor.
Notation lex := (f_lex f).
Notation start scale := {| p_factors := repeat scale (length D); p_exponents := zeros (length D) |}.
Notation n := (length D).

Lemma last_bin j s : nth_error D j = Some s -> (nth j lex 0%nat =? f_finite f)%nat = negb (complete s).
Proof.
  intro E. pose proof (HC s (nth_error_In _ _ E)) as C. destruct (row_finite_semi_positive (x_bins s 0%nat)) eqn:S.
  - assert (NM : ~ missing_entry (x_bins s 0%nat)) by (intro M; apply semi_positive_iff in M; congruence).
    apply C in NM. rewrite NM. apply Nat.eqb_neq.
    pose proof (proj2 (proj2 (lex_row f (Hdim1 g D HB) (rows_len g D HB) (rows_whole g D HB) j _ (row_at g D j s E) S))). lia.
  - assert (M : missing_entry (x_bins s 0%nat)) by (apply semi_positive_iff; exact S).
    destruct (complete s); [exfalso; apply (proj1 C eq_refl M)|].
    cbn [negb]. apply Nat.eqb_eq. exact (lex_missing f (Hdim1 g D HB) (rows_len g D HB) j _ (row_at g D j s E) M).
Qed.

Lemma pick (h : R -> R) c : forall l (D0 : list sample),
  length l = length D0 ->
  (forall j s, nth_error D0 j = Some s -> (nth j l 0%nat =? c)%nat = negb (complete s)) ->
  sumR (map2 (fun b wj => if Nat.eqb b c then 0 else wj) l (map x_w D0)) = cell_sum complete x_w D0.
Proof.
  induction l as [|b l IH]; intros [|s D0] L H; try discriminate; [reflexivity|]. cbn [map map2 sumR cell_sum].
  rewrite IH by (try (cbn in L; lia); intros j s' E; exact (H (S j) s' E)).
  pose proof (H 0%nat s eq_refl) as X. cbn [nth] in X. rewrite X. destruct (complete s); reflexivity.
Qed.

Lemma complete_pos : forall D0, Forall (fun s => 0 < x_w s) D0 -> 0 <= cell_sum complete x_w D0 /\
  ((exists s, In s D0 /\ complete s = true) -> 0 < cell_sum complete x_w D0).
Proof.
  induction 1 as [|s D0 P _ (I1 & I2)]; cbn [cell_sum]; [split; [lra|intros (s & [] & _)]|].
  split; [destruct (complete s); lra|]. intros (s' & [<-|I] & C); [rewrite C; lra|].
  specialize (I2 (ex_intro _ s' (conj I C))). destruct (complete s); lra.
Qed.

Lemma rest_of scale : forall (D0 : list sample) p, length p = length D0 ->
  (forall j s, nth_error D0 j = Some s -> complete s = false -> nth j p 0 = scale) ->
  sumR (map2 Rmult (map x_w D0) p) = scale * sumR (map x_w D0) ->
  sumR (map2 (fun s v => if complete s then x_w s * v else 0) D0 p) = scale * cell_sum complete x_w D0.
Proof.
  intros D0 p L H T.
  assert (G : sumR (map2 Rmult (map x_w D0) p) - scale * sumR (map x_w D0) =
    sumR (map2 (fun s v => if complete s then x_w s * v else 0) D0 p) - scale * cell_sum complete x_w D0).
  { clear T. revert p L H. induction D0 as [|s D0 IH]; intros [|v p] L H; try discriminate; [cbn; ring|].
    cbn [map map2 sumR cell_sum]. specialize (IH p ltac:(cbn in L; lia) (fun j s' E => H (S j) s' E)).
    destruct (complete s) eqn:C; [lra|]. pose proof (H 0%nat s eq_refl C) as X. cbn [nth] in X. subst v. lra. }
  lra.
Qed.

Theorem missing_keeps fuel t :
  whole_fit gm bppf erfinv bad kd false [g] cfg rate fuel D = Trained t ->
  length (whole_predict kd false t D) = n /\
  (forall j s, nth_error D j = Some s -> missing_entry (x_bins s 0%nat) -> nth_error (whole_predict kd false t D) j = Some (o_scale t)) /\
  sumR (map2 (fun s p => if complete s then x_w s * p else 0) D (whole_predict kd false t D)) = o_scale t * cell_weight complete D.
Proof.
  intros F. unfold whole_fit in F. destruct (kind_scale kd y w) as [scale|] eqn:KS; [|discriminate]. cbv zeta in F.
  set (off := kind_offset kd scale _ w) in F. clearbody off.
  destruct (train gm bppf erfinv bad kd false [g] cfg rate fuel D scale off) as [[st|e]|] eqn:E; try discriminate. injection F as <-. cbn [o_scale].
  destruct (start_shaped [g] D HB scale) as (W & Ls). destruct (bind_shaped D [g] (start scale) HB (proj1 Ls) (proj2 Ls)) as (_ & Hd & Hwh).
  unfold train in E. cbv zeta in E. cbn [linked_column prior_predictions] in E.
  set (calc := fun (i _ : nat) (p : preds) => map (estimate_value bad) (group_estimates gm bppf erfinv kd (bind_groups D 0 [g]) y w i p)) in E.
  set (smooth := fun (i _ : nat) (p : preds) => group_smoother gm bppf erfinv bad kd [g] (bind_groups D 0 [g]) y w i p) in E.
  set (loss := fun p : preds => kind_loss bad kd y w (p_factors p)) in E.
  pose proof (insample_all cfg [f] calc smooth (kind_calibration kd [f] w) rate loss (start scale) n W (loop_per_bin gm bppf erfinv bad kd _ _ _) fuel st E Hagg Hd (fun f Hf _ => Hwh f Hf)) as IA.
  rewrite (same_rows x_bins D [f] (bind_rows D [g])), trained_store in IA by (unfold trained_model; rewrite map_length, combine_length; lia).
  match goal with |- length (whole_predict _ _ ?m _) = _ /\ _ => assert (PE : whole_predict kd false m D = p_factors (t_preds st)) end.
  { unfold whole_predict. cbn [o_scale o_offset o_groups]. unfold cb_predict. cbn [linked_column prior_predictions]. rewrite map_length.
    transitivity (map (kind_output kd) (p_factors (t_preds st))); [exact (f_equal (fun q => map (kind_output kd) (p_factors q)) IA)|]. rewrite map_ext with (g := fun x => x) by reflexivity. apply map_id. }
  rewrite PE. clear PE.
  assert (LN : learned_weight f w <> 0).
  { unfold learned_weight. change (f_mnl f) with (g_mnl g). rewrite HM. cbn [andb].
    rewrite (pick id (f_finite f) lex D) by (try apply lex_len; apply last_bin). pose proof (proj2 (complete_pos D HW) HE). lra. }
  destruct (location_mean_kept cfg [f] calc smooth rate loss (start scale) n w W ltac:(rewrite map_length; reflexivity) Hlog) with (fuel := fuel) (st := st) as (MK & _).
  { intros f0 [<-|[]]. split; [reflexivity|]. split; [exact (Hdim1 g D HB)|exact LN]. }
  { exact E. }
  assert (LP : length (p_factors (t_preds st)) = n).
  { pose proof (reached_inv cfg [f] calc smooth (kind_calibration kd [f] w) rate loss (start scale) n W (loop_per_bin gm bppf erfinv bad kd _ _ _) st
      (proj1 (fit_reached cfg [f] calc smooth (kind_calibration kd [f] w) rate loss (start scale) fuel st E))) as (_ & X). destruct X as (X & _). exact X. }
  assert (MP : forall j s, nth_error D j = Some s -> missing_entry (x_bins s 0%nat) -> nth j (p_factors (t_preds st)) 0 = scale).
  { intros j s Ej M. assert (J : (j < n)%nat) by (apply nth_error_Some; congruence).
    destruct (t_feats st) as [|s0 r0] eqn:Ef.
    - exfalso. pose proof (reached_inv cfg [f] calc smooth (kind_calibration kd [f] w) rate loss (start scale) n W (loop_per_bin gm bppf erfinv bad kd _ _ _) st
        (proj1 (fit_reached cfg [f] calc smooth (kind_calibration kd [f] w) rate loss (start scale) fuel st E))) as (V & _). rewrite Ef in V. inversion V.
    - pose proof (missing_not_learned_neutral cfg [f] calc smooth (kind_calibration kd [f] w) rate loss (start scale) n W (loop_per_bin gm bppf erfinv bad kd _ _ _)
        fuel st 0%nat f s0 (map (fun x => x 0%nat) (map x_bins D)) j (x_bins s 0%nat) E) as X.
      rewrite Hlog in X. specialize (X (or_introl eq_refl) eq_refl (Hdim1 g D HB) HM).
      rewrite Ef in X. specialize (fun A B => X A eq_refl B M).
      assert (X' : nth_error (predict_factors (store f s0) (map (fun x => x 0%nat) (map x_bins D))) j = Some 0).
      { apply X; [|rewrite map_map, nth_error_map, Ej; reflexivity]. intro v. unfold kind_calibration, location_calibration. cbn [nth_error].
        change (f_mnl f) with (g_mnl g). rewrite HM. unfold calibrate. rewrite removelast_last. set (c := centred _ _).
        assert (Lc : length c = length v) by (apply centred_length). rewrite <- Lc, firstn_app, firstn_all, Nat.sub_diag. cbn [firstn]. rewrite app_nil_r. reflexivity. }
      rewrite <- IA. cbn [map2 predict_extended predict_from store m_ext]. unfold predict_extended. cbn [predict_from].
      change (f_ext f) with false. cbn [add_preds p_factors].
      rewrite nth_vadd by (rewrite repeat_length, predict_factors_rowpred, !map_length; reflexivity).
      rewrite (nth_error_nth _ _ _ X'), (nth_error_nth _ _ _ (nth_error_repeat scale J)). ring. }
  split; [exact LP|]. split.
  - intros j s Ej M. rewrite (nth_error_nth' _ 0) by (rewrite LP; apply nth_error_Some; congruence). f_equal. exact (MP j s Ej M).
  - apply rest_of; [exact LP| |].
    + intros j s Ej C. apply (MP j s Ej). pose proof (HC s (nth_error_In _ _ Ej)) as X.
      destruct (row_finite_semi_positive (x_bins s 0%nat)) eqn:S; [|apply semi_positive_iff; exact S].
      exfalso. rewrite C in X. assert (NM : ~ missing_entry (x_bins s 0%nat)) by (intro M; apply semi_positive_iff in M; congruence). apply X in NM. discriminate.
    + rewrite MK. cbn [p_factors]. clear. induction D as [|s D0 IH]; [cbn; ring|]. cbn [length repeat map map2 sumR]. rewrite IH. ring.
Qed.
End Missing.
