(** The location regressor trained in two units of the target. *)
From Coq Require Import ZArith QArith Qround List Bool Reals Lra Lia.
From Verif.Model Require Import Num LexBins Train Predict Link Estimators WholeFit Regularize BinSmoothers.
From Verif.Spec Require Import DataSpec LexSpec PredictSpec RegularizeSpec InsampleSpec CellSpec LocationCellSpec TargetUnitSpec.
From Verif.Proofs Require Import TrainFacts LinkFacts LexFacts TrainExamples WholeExamples MetaExamples InsampleFacts DescentFacts DescentExamples CellFacts CellExamples LocationCell LocationCellExamples.
Import ListNotations.
Local Open Scope R_scope.

(** The location regressor in two units. *)
Definition lc_double : list sample := map (unit_row 2) lc_data.

Lemma double_binned : binned_rows [plain_group] lc_double.
Proof.
  destruct lc_binned as (A & B & C). split; [|split].
  - intros r i g I G. apply in_map_iff in I as (r' & <- & I). exact (A r' i g I G).
  - exact B.
  - intros r i x I X. apply in_map_iff in I as (r' & <- & I). exact (C r' i x I X).
Qed.
Lemma double_weights : Forall (fun s => 0 < x_w s) lc_double.
Proof. repeat constructor; cbn; lra. Qed.
Lemma double_bins : bins_of lc_double lc_same.
Proof.
  intros s I s' I'. apply in_map_iff in I as (r & <- & I). apply in_map_iff in I' as (r' & <- & I').
  exact (lc_bins r I r' I').
Qed.
Lemma double_mean : mean_target lc_double = 11.
Proof. unfold mean_target. lc_sums. cbn. lra. Qed.
Lemma double_variance : target_variance lc_double = 83.
Proof.
  unfold target_variance. rewrite double_mean. cbv zeta.
  replace (overall (fun s => x_w s * (x_y s - 11) ^ 2) lc_double / overall x_w lc_double) with 83 by (lc_sums; cbn; field).
  destruct (Rle_dec _ _); lra.
Qed.
Lemma double_cells : forall s, In s lc_double ->
  reluctance (lc_same s) lc_double = if lc_same (w_row 0 0 1) s then 691 / 600 else 683 / 600.
Proof.
  assert (M0 : forall s, lc_same s = lc_same (w_row 0 0 1) -> mean_of_cell (lc_same s) lc_double = 2).
  { intros s ->. unfold mean_of_cell. lc_sums. cbn. lra. }
  assert (M1 : forall s, lc_same s = lc_same (w_row 1 10 2) -> mean_of_cell (lc_same s) lc_double = 20).
  { intros s ->. unfold mean_of_cell. lc_sums. cbn. lra. }
  assert (R0 : forall s, lc_same s = lc_same (w_row 0 0 1) -> reluctance (lc_same s) lc_double = 691 / 600).
  { intros s E. unfold reluctance, cell_variance. rewrite (M0 s E), double_variance, E. lc_sums. cbn. field. }
  assert (R1 : forall s, lc_same s = lc_same (w_row 1 10 2) -> reluctance (lc_same s) lc_double = 683 / 600).
  { intros s E. unfold reluctance, cell_variance. rewrite (M1 s E), double_variance, E. lc_sums. cbn. field. }
  intros s I. destruct I as [<-|[<-|[<-|[]]]].
  - change (lc_same (w_row 0 0 1) _) with true. cbv iota. apply R0. reflexivity.
  - change (lc_same (w_row 0 0 1) _) with true. cbv iota. apply R0. reflexivity.
  - change (lc_same (w_row 0 0 1) _) with false. cbv iota. apply R1. reflexivity.
Qed.
Lemma double_mean_reluctance : mean_reluctance lc_same lc_double = 687 / 600.
Proof.
  unfold mean_reluctance, overall. cbn [cell_sum lc_data map lc_double]. change (map (unit_row 2) lc_data) with lc_double.
  change [unit_row 2 (w_row 0 0 1); unit_row 2 (w_row 0 2 1); unit_row 2 (w_row 1 10 2)] with lc_double.
  rewrite !(double_cells _ (or_introl eq_refl)), (double_cells _ (or_intror (or_introl eq_refl))), (double_cells _ (or_intror (or_intror (or_introl eq_refl)))).
  change (lc_same (w_row 0 0 1) (unit_row 2 (w_row 0 0 1))) with true. change (lc_same (w_row 0 0 1) (unit_row 2 (w_row 0 2 1))) with true.
  change (lc_same (w_row 0 0 1) (unit_row 2 (w_row 1 10 2))) with false.
  cbn [unit_row w_row x_w x_y]. field.
Qed.
Lemma double_excess s : In s lc_double -> excess lc_same lc_double s = if lc_same (w_row 0 0 1) s then 691 / 687000 else 683 / 687000.
Proof. intro I. unfold excess. rewrite double_mean_reluctance, (double_cells s I). destruct (lc_same _ s); field. Qed.
Lemma double_varied : varied lc_same lc_double.
Proof.
  unfold varied. rewrite double_mean. unfold overall. cbn [cell_sum lc_data map lc_double]. change (map (unit_row 2) lc_data) with lc_double.
  change [unit_row 2 (w_row 0 0 1); unit_row 2 (w_row 0 2 1); unit_row 2 (w_row 1 10 2)] with lc_double.
  rewrite (double_excess _ (or_introl eq_refl)), (double_excess _ (or_intror (or_introl eq_refl))), (double_excess _ (or_intror (or_intror (or_introl eq_refl)))).
  change (lc_same (w_row 0 0 1) (unit_row 2 (w_row 0 0 1))) with true. change (lc_same (w_row 0 0 1) (unit_row 2 (w_row 0 2 1))) with true.
  change (lc_same (w_row 0 0 1) (unit_row 2 (w_row 1 10 2))) with false.
  cbn [unit_row w_row x_w x_y]. lra.
Qed.

Theorem location_two_units gm bppf erfinv bad : exists m m',
  whole_fit gm bppf erfinv bad LocationRegressor false [plain_group] (n_cfg 2) ex_rate 2 lc_data = Trained m /\
  whole_fit gm bppf erfinv bad LocationRegressor false [plain_group] (unit_settings 2 (n_cfg 2)) ex_rate 2 (map (unit_row 2) lc_data) = Trained m'.
Proof.
  assert (R0 : forall it i, 0 <= ex_rate it i <= 1) by (intros; unfold ex_rate; lra).
  destruct (location_passes gm bppf erfinv bad plain_group (n_cfg 2) ex_rate lc_data lc_binned lc_weights ltac:(discriminate) R0 eq_refl (or_introl eq_refl) (or_introl eq_refl) eq_refl eq_refl
    lc_same lc_bins lc_varied eq_refl ltac:(cbn; lra) ltac:(cbn; lra) ltac:(cbn; discriminate)) as (m & F & _).
  destruct (location_passes gm bppf erfinv bad plain_group (unit_settings 2 (n_cfg 2)) ex_rate lc_double double_binned double_weights ltac:(discriminate) R0 eq_refl (or_introl eq_refl) (or_introl eq_refl) eq_refl eq_refl
    lc_same double_bins double_varied eq_refl ltac:(cbn; lra) ltac:(cbn; lra) ltac:(cbn; discriminate)) as (m' & F' & _).
  exists m, m'. split; [exact F|exact F'].
Qed.
