(** A training of the classifier with one group. *)
From Coq Require Import ZArith QArith Qround List Bool Reals Lra Lia.
From Verif.Model Require Import Num LexBins Train Predict Link Estimators WholeFit Regularize BinSmoothers.
From Verif.Spec Require Import DataSpec LexSpec PredictSpec InsampleSpec DescentSpec CellSpec PoissonCellSpec ClassifierCellSpec.
From Verif.Proofs Require Import TrainFacts LinkFacts LexFacts TrainExamples WholeExamples MetaExamples InsampleFacts ClassifierFacts DescentFacts DescentExamples CellFacts CellExamples PoissonCell PoissonCellExamples EvidenceSteps ClassifierCell.
Import ListNotations.
Local Open Scope R_scope.

Definition votes : list sample := [w_row 0 0 3; w_row 0 1 1; w_row 1 1 1; w_row 1 1 1].
(** Quantiles of a logistic distribution with the median of the odds close to that of the
    beta distribution, and the matching inverse of the error function. *)
Definition logistic_ppf (a b q : R) : R := unlink_func Logit (ln ((a - 1/3) / (b - 1/3)) + (2 * q - 1)).
Definition straight (x : R) : R := x.
Definition s_cfg (n : nat) : settings :=
  {| c_log := false; c_aggregate := true; c_hier := false; c_thier := 0; c_maxiter := n; c_minfactor := -1; c_minloss := -1 |}.

Lemma logistic_bin A B : 0 <= A -> 0 <= B ->
  exists u, classifier_bin logistic_ppf straight A B = Some (ln ((A + (1001/1000 - 1/3)) / (B + (1001/1000 - 1/3))), u).
Proof.
  intros HA HB. unfold classifier_bin, beta_posterior, percentiles, gaussian_matching, logistic_ppf, beta_prior.
  rewrite (proj2 (Rltb_false A 0) HA), (proj2 (Rltb_false B 0) HB).
  assert (L : forall v, link_func Logit (unlink_func Logit v) = Some v) by (intro v; apply link_unlink).
  rewrite !L. eexists. f_equal. f_equal. unfold matching_coefficient, straight.
  assert (S2 : sqrt 2 <> 0) by (apply Rgt_not_eq, sqrt_lt_R0; lra).
  assert (NZ : A + 1001/1000 + (B + 1001/1000) <> 0) by lra.
  replace (A + (1001 / 1000 - 1 / 3)) with (A + 1001/1000 - 1/3) by ring. replace (B + (1001 / 1000 - 1 / 3)) with (B + 1001/1000 - 1/3) by ring.
  set (l := ln _). set (sh := 4 / 10 * _). field. clearbody sh. intro X. apply S2. lra.
Qed.
Lemma log_above A B c : 0 < c <= 1 -> 0 <= B -> B <= A -> (A - B) / (A + 1) <= ln ((A + c) / (B + c)).
Proof.
  intros Hc HB H. apply Rle_trans with ((A - B) / (A + c)).
  - apply Rmult_le_compat_l; [lra|]. apply Rinv_le_contravar; lra.
  - assert (P : 0 < (A + c) / (B + c)) by (apply Rdiv_lt_0_compat; lra).
    assert (Q : 0 < (B + c) / (A + c)) by (apply Rdiv_lt_0_compat; lra).
    replace (ln ((A + c) / (B + c))) with (- ln ((B + c) / (A + c))) by (rewrite <- ln_Rinv by exact Q; f_equal; field; lra).
    pose proof (exp_ineq1_le (ln ((B + c) / (A + c)))) as E. rewrite exp_ln in E by exact Q.
    replace ((A - B) / (A + c)) with (1 - (B + c) / (A + c)) by (field; lra). lra.
Qed.
Lemma log_below A B c : 0 < c -> 0 < B -> B <= A -> ln ((A + c) / (B + c)) <= ln (A / B).
Proof.
  intros Hc HB H.
  assert (P : (A + c) / (B + c) <= A / B).
  { apply Rmult_le_reg_r with (B * (B + c)); [apply Rmult_lt_0_compat; lra|].
    replace ((A + c) / (B + c) * (B * (B + c))) with ((A + c) * B) by (field; lra).
    replace (A / B * (B * (B + c))) with (A * (B + c)) by (field; lra). nra. }
  destruct P as [P| ->]; [|lra]. left. apply ln_increasing; [apply Rdiv_lt_0_compat; lra|exact P].
Qed.
Lemma logistic_evidence : between_evidence logistic_ppf straight.
Proof.
  intros A B HA HB. destruct (logistic_bin A B HA HB) as (u & E). rewrite E. exists (ln ((A + (1001 / 1000 - 1 / 3)) / (B + (1001 / 1000 - 1 / 3)))), u.
  split; [reflexivity|]. split; intro H.
  - split; [apply log_above; lra|]. intro. apply log_below; lra.
  - replace (- ln ((A + (1001 / 1000 - 1 / 3)) / (B + (1001 / 1000 - 1 / 3)))) with (ln ((B + (1001 / 1000 - 1 / 3)) / (A + (1001 / 1000 - 1 / 3)))).
    2:{ rewrite <- ln_Rinv by (apply Rdiv_lt_0_compat; lra). f_equal. field. lra. }
    split; [apply log_above; lra|]. intro. apply log_below; lra.
Qed.

Lemma votes_data : class_data plain_group votes.
Proof.
  split.
  - destruct counts_binned as (A & B & C). split; [|split; [exact B|]].
    + intros r [|i] g I G; cbn in G; [|destruct i; discriminate]. injection G as <-.
      repeat (destruct I as [<-|I]; [reflexivity|]). destruct I.
    + intros r i x I X.
      assert (I' : exists r', In r' counts /\ x_bins r i = x_bins r' i).
      { repeat (destruct I as [<-|I]; [first [exists (w_row 0 0 1); split; [left; reflexivity|reflexivity]
          |exists (w_row 1 4 1); split; [right; right; left; reflexivity|reflexivity]]|]). destruct I. }
      destruct I' as (r' & I' & E). rewrite E in X. exact (C r' i x I' X).
  - repeat apply Forall_cons; try apply Forall_nil; cbn [w_row x_w x_y]; split; lra.
Qed.
Lemma votes_cell : cell_of votes (w_row 0 0 3) first_cell.
Proof.
  intros s' I. destruct I as [<-|[<-|[<-|[<-|[]]]]].
  - exact (counts_cell (w_row 0 0 1) (or_introl eq_refl)).
  - exact (counts_cell (w_row 0 2 1) (or_intror (or_introl eq_refl))).
  - exact (counts_cell (w_row 1 4 1) (or_intror (or_intror (or_introl eq_refl)))).
  - exact (counts_cell (w_row 1 6 1) (or_intror (or_intror (or_intror (or_introl eq_refl))))).
Qed.
Lemma votes_weight : cell_weight first_cell votes = 4.
Proof. unfold cell_weight, first_cell, votes. cbn [cell_sum x_bins w_row w_bins x_w]. cbn. lra. Qed.
Lemma votes_mean : cell_mean first_cell votes (1/4).
Proof. unfold cell_mean. rewrite votes_weight. unfold first_cell, votes. cbn [cell_sum x_bins w_row w_bins x_w x_y]. cbn. lra. Qed.

Theorem class_case : forall gm bad,
  between_evidence logistic_ppf straight /\ class_data plain_group votes /\ g_smoother plain_group = bin_values /\ g_mnl plain_group = false /\
  cell_of votes (w_row 0 0 3) first_cell /\ cell_mean first_cell votes (1/4) /\ cell_weight first_cell votes = 4 /\
  forall eps, 0 < eps -> exists n t p,
    whole_fit gm logistic_ppf straight bad BinaryClassifier false [plain_group] (s_cfg n) ex_rate n votes = Trained t /\
    unlink_func Logit (o_scale t) = 501/1000 /\ nth_error (whole_predict BinaryClassifier false t votes) 0 = Some p /\ Rabs (p - 1/4) <= eps.
Proof.
  intros gm bad.
  split; [exact logistic_evidence|]. split; [exact votes_data|]. split; [reflexivity|]. split; [reflexivity|]. split; [exact votes_cell|].
  split; [exact votes_mean|]. split; [exact votes_weight|]. intros eps He.
  assert (R1 : forall it i, 1 <= ex_rate it i <= 1) by (intros; unfold ex_rate; lra).
  assert (R0 : forall it i, 0 <= ex_rate it i <= 1) by (intros; unfold ex_rate; lra).
  destruct (class_limit gm logistic_ppf straight bad plain_group ex_rate votes logistic_evidence votes_data eq_refl 1 ltac:(lra) R1
    0%nat (w_row 0 0 3) first_cell (1/4) eps eq_refl votes_cell votes_mean ltac:(rewrite votes_weight; lra) (or_introl eq_refl) He) as (n & H).
  destruct (class_trains gm logistic_ppf straight bad plain_group (s_cfg (S n)) ex_rate votes logistic_evidence votes_data R0 eq_refl (or_introl eq_refl) eq_refl eq_refl
    (S n) ltac:(unfold total_target, total_weight; cbn; lra) eq_refl ltac:(cbn; discriminate) ltac:(cbn; lia) ltac:(cbn; lra) ltac:(cbn [s_cfg c_minloss]; apply IZR_lt; reflexivity)) as (t & F & SC & N).
  assert (SC' : unlink_func Logit (o_scale t) = 501/1000) by (rewrite SC; unfold total_target, total_weight; cbn; field).
  specialize (N ltac:(cbn; lra) ltac:(cbn; lra)). cbn [s_cfg c_maxiter] in N.
  destruct (nth_error (whole_predict BinaryClassifier false t votes) 0) as [p|] eqn:EP.
  - exists (S n), t, p. split; [exact F|]. split; [exact SC'|]. split; [exact EP|].
    exact (H (s_cfg (S n)) (S n) t p (or_introl eq_refl) eq_refl eq_refl F ltac:(lia) EP).
  - exfalso. destruct (ClassifierCell.trained_level gm logistic_ppf straight bad plain_group (s_cfg (S n)) ex_rate votes logistic_evidence votes_data R0 eq_refl (or_introl eq_refl) eq_refl eq_refl (S n) t F) as (_ & L & _).
    apply nth_error_None in EP. rewrite L in EP. cbn in EP. lia.
Qed.
