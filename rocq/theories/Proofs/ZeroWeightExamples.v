(** Rows of weight zero: examples and counterexamples. *)
From Coq Require Import ZArith QArith List Bool Reals Lra Lia Permutation.
From Verif.Proofs Require Import LinkFacts TrainFacts NeutralFacts WholeExamples QuantileFacts BinFitFacts PriorDispersionFacts PriceFitExamples ZeroWeightFacts TrainExamples.
From Verif.Model Require Import Num LexBins Train Predict Link Estimators WholeFit Quantile LossModes Dispersion BinFit PriceFit SmootherChoice BinSmoothers.
From Verif.Spec Require Import PriceFitSpec DataSpec QuantileSpec BinFitSpec ZeroWeightSpec.
Import ListNotations.
Local Open Scope R_scope.

(** Two rows with weights and one without, in the bin of the first. *)
Definition with_zero : list WholeFit.sample := [w_row 0 1 2; w_row 0 7 0; w_row 1 3 1].
Lemma with_zero_weighty : weighty with_zero = [w_row 0 1 2; w_row 1 3 1].
Proof. unfold weighty, with_zero. cbn [filter w_row x_w]. rewrite (proj2 (Reqb_false_iff 2 0)), (proj2 (Reqb_false_iff 1 0)) by lra. rewrite (proj2 (Reqb_iff 0 0)) by lra. reflexivity. Qed.
Lemma with_zero_covered : covered with_zero.
Proof.
  intros s i I. rewrite with_zero_weighty. destruct I as [<-|[<-|[<-|[]]]].
  - exists (w_row 0 1 2). split; [left|]; reflexivity.
  - exists (w_row 0 1 2). split; [left|]; reflexivity.
  - exists (w_row 1 3 1). split; [right; left|]; reflexivity.
Qed.
Lemma with_zero_formed : well_formed [w_group explicit_mean] with_zero.
Proof. intros s i g I E. destruct i as [|[|i]]; try discriminate E. injection E as <-. destruct I as [<-|[<-|[<-|[]]]]; reflexivity. Qed.

(** Weighted mean squares as costs. *)
Definition weighted_squares : cost_function := fun prediction y weights =>
  Some (sumR (map2 Rmult weights (map2 (fun p t => (p - t) ^ 2) prediction y)) / sumR weights).
Lemma weighted_squares_sum (rows : list (R * R * R)) :
  weighted_squares (map (fun r => fst (fst r)) rows) (map (fun r => snd (fst r)) rows) (map snd rows) =
  Some (sumR (map (fun r => snd r * (fst (fst r) - snd (fst r)) ^ 2) rows) / sumR (map snd rows)).
Proof. unfold weighted_squares. rewrite !map2_rows'. reflexivity. Qed.
Lemma weighted_squares_plain : plain_mode (AdditiveCosts weighted_squares).
Proof.
  split.
  - intros rows rows' P. rewrite !weighted_squares_sum. rewrite (sumR_perm _ _ (Permutation_map _ P)), (sumR_perm _ _ (Permutation_map snd P)). reflexivity.
  - intros rows rows' _. rewrite !weighted_squares_sum. unfold rows'.
    assert (V : forall r : R * R * R, snd r = 0 -> snd r * (fst (fst r) - snd (fst r)) ^ 2 = 0) by (intros r E; rewrite E; ring).
    rewrite (sum_weighty snd _ rows V). rewrite (sum_weighty snd snd rows (fun _ E => E)). reflexivity.
Qed.

(** ** Quantile regression: rows without weight move the baseline. *)
Definition heavy_zero : list WholeFit.sample := [w_row 0 1 2; w_row 0 1 0].
Lemma heavy_zero_weighty : weighty heavy_zero = one_heavy.
Proof. unfold weighty, heavy_zero, one_heavy. cbn [filter w_row x_w]. rewrite (proj2 (Reqb_false_iff _ 0)) by lra. rewrite (proj2 (Reqb_iff 0 0)) by lra. reflexivity. Qed.
Lemma heavy_zero_covered : covered heavy_zero.
Proof. intros s i I. rewrite heavy_zero_weighty. exists (w_row 0 1 2). split; [left; reflexivity|]. destruct I as [<-|[<-|[]]]; reflexivity. Qed.
Lemma heavy_zero_scale sort : sorts sort -> mode_scale sort (AdditiveQuantile (1/2)) heavy_zero = Some 2.
Proof.
  intro SO. unfold mode_scale, quantile_global_scale, heavy_zero. cbn [map mode_link link_option x_y x_w w_row].
  unfold continuous_quantile. destruct (SO [(1, 2); (1, 0)]) as [P _]. apply Permutation_sym, Permutation_length_2_inv in P.
  assert (I : Int_part 1 = 1%Z). { unfold Int_part. rewrite <- (tech_up 1 2); [reflexivity|cbn; lra|cbn; lra]. }
  assert (T : trunc ((2 + (0 + 0)) * (1 / 2)) = 1%Z).
  { replace ((2 + (0 + 0)) * (1 / 2)) with 1 by lra. unfold trunc. rewrite (proj2 (Rleb_iff 0 1)) by lra. exact I. }
  assert (Q : positions 1 [1; 1] = [0%nat; 1%nat]).
  { unfold positions. cbn [length seq filter nth]. rewrite !(proj2 (Reqb_iff 1 1)) by auto. reflexivity. }
  destruct P as [-> | ->]; cbv zeta; cbn [map fst snd sumR reaching].
  - rewrite (proj2 (Rleb_iff _ _)) by lra. rewrite Q. cbn [hd last Nat.ltb Nat.leb]. rewrite T. cbn [INR]. cbn. f_equal. field.
  - rewrite (proj2 (Rleb_false _ _)) by lra. rewrite (proj2 (Rleb_iff _ _)) by lra. rewrite Q. cbn [hd last Nat.ltb Nat.leb]. rewrite T. cbn [INR]. cbn. f_equal. field.
Qed.
Theorem quantile_zero_weights : covered heavy_zero /\
  forall sort minimize bppf erfinv reorder bad prior gs cfg rate fuel t t', sorts sort ->
  mode_fit sort minimize bppf erfinv reorder bad (AdditiveQuantile (1/2)) prior gs cfg rate fuel heavy_zero = Trained t ->
  mode_fit sort minimize bppf erfinv reorder bad (AdditiveQuantile (1/2)) prior gs cfg rate fuel (weighty heavy_zero) = Trained t' ->
  o_scale t = 2 /\ o_scale t' = 1.
Proof.
  split; [exact heavy_zero_covered|]. intros sort minimize bppf erfinv reorder bad prior gs cfg rate fuel t t' SO T T'. rewrite heavy_zero_weighty in T'.
  apply mode_fit_scale in T. apply mode_fit_scale in T'. rewrite heavy_zero_scale in T by exact SO. rewrite heavy_scale in T' by exact SO.
  injection T as <-. injection T' as <-. auto.
Qed.

(** ** Dispersions: every row counts, whatever its weight. *)
Lemma dispersion_counts lgamma gamma bayes n it (rows : list (mean_row * R)) : rows <> [] ->
  snd (dispersion_estimate lgamma gamma bayes n it rows) = 1 / sqrt (INR (length rows)).
Proof.
  intro NE.
  assert (L : forall l, length (bin_rows (map (fun e : mean_row * R => {| c_y := x_y (fst (fst e)); c_mu := snd (fst e); c_link := snd e; c_bin := 0 |}) l) 0) = length l).
  { induction l; cbn; auto. }
  transitivity (1 / sqrt (INR (Nat.max 1 (length (bin_rows (map (fun e : mean_row * R => {| c_y := x_y (fst (fst e)); c_mu := snd (fst e); c_link := snd e; c_bin := 0 |}) rows) 0))))); [reflexivity|].
  rewrite L. destruct rows as [|r rows]; [congruence|]. reflexivity.
Qed.

(** ** The price model: rows without weight take part in the averages of the exponents. *)
Definition p_zero : list price_sample := [at_reference (-1) 1; at_reference (-2) 0].
Definition p_single : list price_sample := [at_reference (-1) 1].
Lemma p_zero_run a c : exists l o, price_fit third a c 1 false [(u_group, true)] p_cfg ex_rate 1 p_zero = Trained (p_model 11 l o).
Proof.
  assert (M : mean_square p_zero = 11) by (unfold mean_square; cbn; field).
  destruct (reference_run a c p_zero p_scale) as (l & o & ->); try rewrite M; try reflexivity; try lra; try discriminate.
  - repeat constructor; do 2 eexists; (split; [reflexivity|lra]).
  - unfold global_scale. cbn [p_zero map at_reference q_row w_row x_y x_w]. unfold weighted_mean. cbn. rewrite (proj2 (Reqb_false_iff _ _)) by lra. cbn.
    replace ((1 * 1 + (1 * 0 + 0)) / (1 + (0 + 0)) + 1 / 1000) with (1 + 1 / 1000) by field. rewrite (proj2 (Rltb_iff _ _)) by lra. reflexivity.
  - cbn. lra.
  - repeat constructor; cbn; lra.
  - exists l, o. reflexivity.
Qed.
Lemma p_single_run a c : exists l o, price_fit third a c 1 false [(u_group, true)] p_cfg ex_rate 1 p_single = Trained (p_model 8 l o).
Proof.
  assert (M : mean_square p_single = 8) by (unfold mean_square; cbn; field).
  destruct (reference_run a c p_single p_scale) as (l & o & ->); try rewrite M; try reflexivity; try lra; try discriminate.
  - repeat constructor; do 2 eexists; (split; [reflexivity|lra]).
  - unfold global_scale. cbn [p_single map at_reference q_row w_row x_y x_w]. unfold weighted_mean. cbn. rewrite (proj2 (Reqb_false_iff _ _)) by lra. cbn.
    replace ((1 * 1 + 0) / (1 + 0) + 1 / 1000) with (1 + 1 / 1000) by field. rewrite (proj2 (Rltb_iff _ _)) by lra. reflexivity.
  - cbn. lra.
  - repeat constructor; cbn; lra.
  - exists l, o. reflexivity.
Qed.
Theorem price_zero_weights : exists r s x, x_w (q_row s) = 0 /\ x_bins (q_row s) = x_bins (q_row r) /\ forall a c, exists t t',
  price_fit third a c 1 false [(u_group, true)] p_cfg ex_rate 1 [r; s] = Trained t /\
  price_fit third a c 1 false [(u_group, true)] p_cfg ex_rate 1 [r] = Trained t' /\
  price_fit_predict false t [x] <> price_fit_predict false t' [x].
Proof.
  exists (at_reference (-1) 1), (at_reference (-2) 0), (with_price (at_reference (-1) 1) (Fin 2)). split; [reflexivity|]. split; [reflexivity|]. intros a c.
  destruct (p_zero_run a c) as (l & o & H). destruct (p_single_run a c) as (l' & o' & H'). exists (p_model 11 l o), (p_model 8 l' o').
  split; [exact H|]. split; [exact H'|]. rewrite !p_model_predict by lra. intro E. injection E as E. apply exp_inv in E.
  assert (Q : (11 + 2 - 1 / 3) / (11 + 167834 / 100000) = (8 + 2 - 1 / 3) / (8 + 167834 / 100000)) by lra.
  lra.
Qed.
