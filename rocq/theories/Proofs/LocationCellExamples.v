(** Two bins of the location regressor. *)
From Coq Require Import ZArith QArith Qround List Bool Reals Lra Lia.
From Verif.Model Require Import Num LexBins Train Predict Link Estimators WholeFit Regularize BinSmoothers.
From Verif.Spec Require Import DataSpec LexSpec PredictSpec RegularizeSpec InsampleSpec CellSpec LocationCellSpec.
From Verif.Proofs Require Import TrainFacts LinkFacts LexFacts TrainExamples WholeExamples MetaExamples InsampleFacts DescentFacts DescentExamples CellFacts CellExamples LocationCell.
Import ListNotations.
Local Open Scope R_scope.

Definition lc_data : list sample := [w_row 0 0 1; w_row 0 2 1; w_row 1 10 2].
Definition lc_same (s s' : sample) : bool :=
  match x_bins s 0%nat, x_bins s' 0%nat with
  | [Fin a], [Fin b] => Qeq_bool a b
  | _, _ => false
  end.

Lemma lc_binned : binned_rows [plain_group] lc_data.
Proof.
  split; [|split].
  - intros r [|i] g I G; cbn in G; [|destruct i; discriminate]. injection G as <-.
    repeat (destruct I as [<-|I]; [reflexivity|]). destruct I.
  - intros g [<-|[]]. cbn. lia.
  - destruct plain_binned as (_ & _ & C). intros r i x I X.
    assert (I' : exists r', In r' noisy /\ x_bins r i = x_bins r' i).
    { repeat (destruct I as [<-|I]; [first [exists (w_row 0 101 1); split; [left; reflexivity|reflexivity]
        |exists (w_row 1 (199/2) 1); split; [right; right; left; reflexivity|reflexivity]]|]). destruct I. }
    destruct I' as (r' & I' & E). rewrite E in X. exact (C r' i x I' X).
Qed.
Lemma lc_weights : Forall (fun s => 0 < x_w s) lc_data.
Proof. repeat constructor; cbn; lra. Qed.

Lemma lc_bins : bins_of lc_data lc_same.
Proof.
  assert (U : forall a t, holds_tuple [Fin (inject_Z a)] t -> t = [a]).
  { intros a t H. inversion H as [|? k ? t' (q & E & Q) H']; subst. inversion H'; subst. injection E as <-. f_equal.
    symmetry. apply inject_Z_injective. exact Q. }
  assert (A : forall a b, (0 <= a)%Z -> same_cell [Fin (inject_Z a)] [Fin (inject_Z b)] <-> a = b).
  { intros a b P. split.
    - intros [(t & H1 & H2)|(M & _)]; [|exfalso; exact (not_missing_w a P M)].
      rewrite (U a t H1) in H2. apply holds_w in H2. congruence.
    - intros <-. left. exists [a]. split; apply holds_w; reflexivity. }
  intros s I s' I'.
  repeat (destruct I as [<-|I]; [repeat (destruct I' as [<-|I']; [unfold lc_same; cbn [x_bins w_row w_bins];
    first [pose proof (A 0%Z 0%Z ltac:(lia)) as X; split; [intros _; apply X; reflexivity|reflexivity]
          |pose proof (A 1%Z 1%Z ltac:(lia)) as X; split; [intros _; apply X; reflexivity|reflexivity]
          |pose proof (A 0%Z 1%Z ltac:(lia)) as X; split; [discriminate|intro Y; exfalso; apply X in Y; discriminate]
          |pose proof (A 1%Z 0%Z ltac:(lia)) as X; split; [discriminate|intro Y; exfalso; apply X in Y; discriminate]]|]); destruct I'|]).
  destruct I.
Qed.

Ltac lc_sums := unfold overall, cell_weight, cell_sum, lc_data, lc_same; cbn [x_bins w_row w_bins x_w x_y Qeq_bool Qnum Qden inject_Z Z.mul Zeq_bool Z.compare Pos.mul].

Lemma lc_mean : mean_target lc_data = 11 / 2.
Proof. unfold mean_target. lc_sums. cbn. lra. Qed.
Lemma lc_variance : target_variance lc_data = 83 / 4.
Proof.
  unfold target_variance. rewrite lc_mean. cbv zeta.
  replace (overall (fun s => x_w s * (x_y s - 11 / 2) ^ 2) lc_data / overall x_w lc_data) with (83 / 4) by (lc_sums; cbn; field).
  destruct (Rle_dec _ _); lra.
Qed.
Lemma lc_cells : forall s, In s lc_data ->
  mean_of_cell (lc_same s) lc_data = (if lc_same (w_row 0 0 1) s then 1 else 10) /\
  reluctance (lc_same s) lc_data = if lc_same (w_row 0 0 1) s then 2491 / 2400 else 2483 / 2400.
Proof.
  assert (M0 : forall s, lc_same s = lc_same (w_row 0 0 1) -> mean_of_cell (lc_same s) lc_data = 1).
  { intros s ->. unfold mean_of_cell. lc_sums. cbn. lra. }
  assert (M1 : forall s, lc_same s = lc_same (w_row 1 10 2) -> mean_of_cell (lc_same s) lc_data = 10).
  { intros s ->. unfold mean_of_cell. lc_sums. cbn. lra. }
  assert (R0 : forall s, lc_same s = lc_same (w_row 0 0 1) -> reluctance (lc_same s) lc_data = 2491 / 2400).
  { intros s E. unfold reluctance, cell_variance. rewrite (M0 s E), lc_variance, E. lc_sums. cbn. field. }
  assert (R1 : forall s, lc_same s = lc_same (w_row 1 10 2) -> reluctance (lc_same s) lc_data = 2483 / 2400).
  { intros s E. unfold reluctance, cell_variance. rewrite (M1 s E), lc_variance, E. lc_sums. cbn. field. }
  intros s I. destruct I as [<-|[<-|[<-|[]]]].
  - change (lc_same (w_row 0 0 1) (w_row 0 0 1)) with true. split; [apply M0|apply R0]; reflexivity.
  - change (lc_same (w_row 0 0 1) (w_row 0 2 1)) with true. split; [apply M0|apply R0]; reflexivity.
  - change (lc_same (w_row 0 0 1) (w_row 1 10 2)) with false. split; [apply M1|apply R1]; reflexivity.
Qed.
Lemma lc_mean_reluctance : mean_reluctance lc_same lc_data = 2487 / 2400.
Proof.
  unfold mean_reluctance, overall. cbn [cell_sum lc_data]. fold lc_data.
  rewrite (proj2 (lc_cells _ (or_introl eq_refl))), (proj2 (lc_cells _ (or_intror (or_introl eq_refl)))), (proj2 (lc_cells _ (or_intror (or_intror (or_introl eq_refl))))).
  change (lc_same (w_row 0 0 1) (w_row 0 0 1)) with true. change (lc_same (w_row 0 0 1) (w_row 0 2 1)) with true. change (lc_same (w_row 0 0 1) (w_row 1 10 2)) with false.
  cbn [w_row x_w]. field.
Qed.
Lemma lc_excess s : In s lc_data -> excess lc_same lc_data s = if lc_same (w_row 0 0 1) s then 2491 / 2487000 else 2483 / 2487000.
Proof. intro I. unfold excess. rewrite lc_mean_reluctance, (proj2 (lc_cells s I)). destruct (lc_same _ s); field. Qed.

Lemma lc_varied : varied lc_same lc_data.
Proof.
  unfold varied. rewrite lc_mean. unfold overall. cbn [cell_sum lc_data]. fold lc_data.
  rewrite (lc_excess _ (or_introl eq_refl)), (lc_excess _ (or_intror (or_introl eq_refl))), (lc_excess _ (or_intror (or_intror (or_introl eq_refl)))).
  change (lc_same (w_row 0 0 1) (w_row 0 0 1)) with true. change (lc_same (w_row 0 0 1) (w_row 0 2 1)) with true. change (lc_same (w_row 0 0 1) (w_row 1 10 2)) with false.
  cbn [w_row x_w x_y]. lra.
Qed.

Theorem lc_case : forall gm bppf erfinv bad,
  binned_rows [plain_group] lc_data /\ Forall (fun s => 0 < x_w s) lc_data /\ bins_of lc_data lc_same /\ varied lc_same lc_data /\
  mean_of_cell (lc_same (w_row 0 0 1)) lc_data = 1 /\ excess lc_same lc_data (w_row 0 0 1) = 2491 / 2487000 /\
  forall eps, 0 < eps -> exists cfg t p,
    c_log cfg = false /\ c_aggregate cfg = true /\
    whole_fit gm bppf erfinv bad LocationRegressor false [plain_group] cfg ex_rate (c_maxiter cfg) lc_data = Trained t /\
    nth_error (whole_predict LocationRegressor false t lc_data) 0 = Some p /\ Rabs (p - (1 + 2491 / 2487000)) <= eps.
Proof.
  intros gm bppf erfinv bad.
  assert (I0 : In (w_row 0 0 1) lc_data) by (left; reflexivity).
  assert (M : mean_of_cell (lc_same (w_row 0 0 1)) lc_data = 1) by exact (proj1 (lc_cells _ I0)).
  assert (X : excess lc_same lc_data (w_row 0 0 1) = 2491 / 2487000) by exact (lc_excess _ I0).
  split; [exact lc_binned|]. split; [exact lc_weights|]. split; [exact lc_bins|]. split; [exact lc_varied|]. split; [exact M|]. split; [exact X|].
  intros eps He.
  assert (R1 : forall it i, 1 <= ex_rate it i <= 1) by (intros; unfold ex_rate; lra).
  assert (R0 : forall it i, 0 <= ex_rate it i <= 1) by (intros; unfold ex_rate; lra).
  destruct (location_limit gm bppf erfinv bad plain_group ex_rate lc_data lc_binned lc_weights eq_refl (or_introl eq_refl) lc_same lc_bins lc_varied
    1 ltac:(lra) R1 0%nat (w_row 0 0 1) eps eq_refl He) as (n & H). rewrite M, X in H.
  destruct (location_passes gm bppf erfinv bad plain_group (n_cfg (S n)) ex_rate lc_data lc_binned lc_weights ltac:(discriminate) R0 eq_refl (or_introl eq_refl) (or_introl eq_refl) eq_refl eq_refl
    lc_same lc_bins lc_varied eq_refl ltac:(cbn; lra) ltac:(cbn; lra) ltac:(cbn; discriminate)) as (t & F & N).
  assert (P : exists p, nth_error (whole_predict LocationRegressor false t lc_data) 0 = Some p).
  { destruct (nth_error (whole_predict LocationRegressor false t lc_data) 0) as [p|] eqn:E; [eauto|]. exfalso. apply nth_error_None in E.
    destruct (trained_level gm bppf erfinv bad plain_group (n_cfg (S n)) ex_rate lc_data lc_binned lc_weights ltac:(discriminate) R0 eq_refl (or_introl eq_refl) (or_introl eq_refl) eq_refl eq_refl
      (mean_target lc_data + 1 / 1000) (c_maxiter (n_cfg (S n))) t) as (L & _).
    - apply (scale_is gm bppf erfinv bad plain_group (n_cfg (S n)) ex_rate lc_data); auto using lc_binned, lc_weights. discriminate.
    - apply (varied_enough gm bppf erfinv bad plain_group (n_cfg (S n)) ex_rate lc_data lc_binned lc_weights ltac:(discriminate) R0 (or_introl eq_refl) lc_same lc_bins lc_varied).
    - exact F.
    - rewrite L in E. cbn in E. lia. }
  destruct P as (p & P). exists (n_cfg (S n)), t, p. split; [reflexivity|]. split; [reflexivity|]. split; [exact F|]. split; [exact P|].
  refine (H (n_cfg (S n)) _ t p (or_introl eq_refl) eq_refl eq_refl F _ P). rewrite N. cbn. lia.
Qed.
