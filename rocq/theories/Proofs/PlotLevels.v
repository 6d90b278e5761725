(** Facts about the levels in the data for plots. *)
From Coq Require Import ZArith QArith List Bool Reals Lia Lra.
From Verif.Model Require Import Num BinarySearch LexBins Train Estimators Quantile PlotData.
From Verif.Spec Require Import EstimatorSpec QuantileSpec PlotSpec.
From Verif.Proofs Require Import LexFacts TrainFacts TrainExamples PredictFacts EstimatorFacts LinkFacts GenericFacts ImportanceFacts PlotFacts.
Import ListNotations.
Local Open Scope R_scope.

Lemma div_order m a b : 0 < m -> (a / m < b / m <-> a < b).
Proof.
  intro H. split; intro L.
  - apply Rmult_lt_compat_r with (r := m) in L; [|lra]. unfold Rdiv in L. rewrite !Rmult_assoc, Rinv_l, !Rmult_1_r in L by lra. lra.
  - unfold Rdiv. apply Rmult_lt_compat_r; [apply Rinv_0_lt_compat; lra|lra].
Qed.
Lemma signals_relative identity m a b : (identity = false -> 0 < m /\ 0 <= a /\ 0 <= b) ->
  signals (relative identity a m - relative identity b m) a b.
Proof.
  intro H. unfold relative. destruct identity.
  - unfold signals. repeat split; intro; lra.
  - destruct (H eq_refl) as (M & A & B). apply (signals_iff _ (a / m) (b / m)).
    + apply div_order; auto.
    + split; intro E; [|now rewrite E]. apply (f_equal (fun x => x * m)) in E. unfold Rdiv in E. rewrite !Rmult_assoc, Rinv_l, !Rmult_1_r in E by lra. lra.
    + apply div_order; auto.
    + apply signals_ln; (apply Rmult_le_pos; [auto|left; apply Rinv_0_lt_compat; auto]).
Qed.
Lemma level_sign identity lex n v w m k k' : per_row lex v -> per_row lex w -> nonneg w ->
  (identity = false -> nonneg v /\ 0 < m) -> (k <= n)%nat -> (k' <= n)%nat -> bin_sum lex (at_row w) k = bin_sum lex (at_row w) k' ->
  let levels := map (fun x => relative identity x m) (map2 (fun s c => (s + 1) / (c + 1)) (bincounts lex (map2 Rmult w v) (S n)) (bincounts lex w (S n))) in
  exists a b, nth_error levels k = Some a /\ nth_error levels k' = Some b /\
    signals (a - b) (bin_sum lex (fun j => at_row w j * at_row v j) k) (bin_sum lex (fun j => at_row w j * at_row v j) k').
Proof.
  intros Lv Lw W NN Hk Hk' E levels.
  assert (E' : bin_total lex w k = bin_total lex w k') by (rewrite !bin_total_sum by auto; exact E). clear E. rename E' into E.
  set (s := bin_total lex (map2 Rmult w v) k). set (s' := bin_total lex (map2 Rmult w v) k').
  set (c := bin_total lex w k) in *. set (c' := bin_total lex w k') in *.
  assert (Hc : 0 <= c) by (apply bin_total_nonneg; exact W).
  exists (relative identity ((s + 1) / (c + 1)) m), (relative identity ((s' + 1) / (c' + 1)) m).
  split; [|split].
  - unfold levels. rewrite nth_error_map, (nth_error_map2 _ _ _ k s c); [reflexivity| |]; apply nth_bincounts; lia.
  - unfold levels. rewrite nth_error_map, (nth_error_map2 _ _ _ k' s' c'); [reflexivity| |]; apply nth_bincounts; lia.
  - rewrite <- !bin_product by auto. fold s s'. rewrite <- E.
    eapply signals_iff; [| | |apply (signals_relative identity m ((s + 1) / (c + 1)) ((s' + 1) / (c + 1)))].
    + apply smoothed_order; auto.
    + apply smoothed_equal; auto.
    + apply smoothed_order; auto.
    + intro I. destruct (NN I) as [Nv M].
      assert (0 <= s) by (apply bin_total_nonneg; apply products_nonneg; auto).
      assert (0 <= s') by (apply bin_total_nonneg; apply products_nonneg; auto).
      split; [exact M|]. split; (apply Rmult_le_pos; [lra|left; apply Rinv_0_lt_compat; lra]).
Qed.
Lemma base_levels : forall identity lex n y w pred k k', per_row lex y -> per_row lex w -> per_row lex pred -> nonneg w ->
  let d := prepare_plots identity lex n y w pred in
  (identity = false -> nonneg y /\ nonneg pred /\ 0 < d_y_finite d /\ 0 < d_pred_finite d) ->
  (k <= n)%nat -> (k' <= n)%nat -> bin_sum lex (at_row w) k = bin_sum lex (at_row w) k' ->
  (exists a b, nth_error (d_y d) k = Some a /\ nth_error (d_y d) k' = Some b /\
     signals (a - b) (bin_sum lex (fun j => at_row w j * at_row y j) k) (bin_sum lex (fun j => at_row w j * at_row y j) k')) /\
  (exists a b, nth_error (d_pred d) k = Some a /\ nth_error (d_pred d) k' = Some b /\
     signals (a - b) (bin_sum lex (fun j => at_row w j * at_row pred j) k) (bin_sum lex (fun j => at_row w j * at_row pred j) k')).
Proof.
  intros identity lex n y w pred k k' Ly Lw Lp W d NN Hk Hk' E.
  split.
  - apply (level_sign identity lex n y w (d_y_finite d) k k'); auto. intro I. destruct (NN I) as (A & B & C & D). auto.
  - apply (level_sign identity lex n pred w (d_pred_finite d) k k'); auto. intro I. destruct (NN I) as (A & B & C & D). auto.
Qed.
Lemma levels_example : let d := prepare_plots false [0; 1]%nat 2 [1; 2] [1; 1] [2; 1] in
  0 < d_y_finite d /\ 0 < d_pred_finite d /\ bin_sum [0; 1]%nat (at_row [1; 1]) 0 = bin_sum [0; 1]%nat (at_row [1; 1]) 1.
Proof.
  cbn. split; [|split].
  - apply Rdiv_lt_0_compat; lra.
  - apply Rdiv_lt_0_compat; lra.
  - unfold bin_sum. cbn. lra.
Qed.
