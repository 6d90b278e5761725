(** Worked bin estimates. *)
From Coq Require Import List Bool Reals Lia Lra ZArith QArith.
From Verif.Model Require Import Num LexBins Train Predict Link Estimators.
From Verif.Spec Require Import TrainSpec PredictSpec LinkSpec EstimatorSpec.
From Verif.Proofs Require Import TrainFacts TrainExamples PredictFacts ImportanceFacts LinkFacts EstimatorFacts
  ClassifierFacts LocationFacts CentredFacts.
Import ListNotations.
Local Open Scope R_scope.

(** Two rows in bin 0, one in bin 2, none in bin 1. *)
Definition e_lex : list nat := [0; 2; 0]%nat.
Definition e_y : list R := [4; 0; 2].
Definition e_w : list R := [1; 1; 1/2].
Definition e_s : list R := [0; 0; 0].

Lemma e_rows : per_row e_lex e_y /\ per_row e_lex e_w /\ per_row e_lex e_s /\ nonneg e_y /\ nonneg e_w.
Proof.
  repeat (split; [reflexivity|]). split; intros x; unfold e_y, e_w; cbn; intros [<-|[<-|[<-|[]]]]; lra.
Qed.

Lemma ex_c29 :
  fst (nbinom_parameters (fun a => a) 1 0 e_lex 3 e_y e_w e_s) =
  [ln (7 / (167834 / 100000 + 3 / 2)); ln (2 / (167834 / 100000)); ln (2 / (167834 / 100000 + 1))].
Proof.
  assert (B : forall a b : R, a <= 1000000000000 -> b <= 1000000000000 -> posterior_estimate (fun a => a) a b = a / b).
  { intros. unfold posterior_estimate. destruct (_ && _); reflexivity. }
  unfold nbinom_parameters, calc_factors_and_uncertainties, bincounts, e_lex, e_y, e_w, e_s, gamma_alpha_prior, gamma_beta_prior, factor_from_posterior.
  cbn [map seq bin_total map2 fst Nat.eqb]. cbn [unlink_func]. rewrite exp_0. rewrite !B by lra. repeat (apply f_equal2; [apply f_equal; field|]). reflexivity.
Qed.

Lemma ex_c30_empty : forall j, ~ row_in e_lex 1 j.
Proof. intros [|[|[|[|j]]]]; unfold row_in, e_lex; cbn; discriminate. Qed.

(** Chi-square of bin 0: data 4 and 2, prior 0 with weight 1/2. *)
Lemma ex_c31 : nth_error (calc_factors_generic e_lex (map2 Rmult e_w e_y) e_w [1; 1; 1] 3 0 (1/2)) 0 =
  Some (Some (5/2, sqrt (1/2))).
Proof.
  unfold calc_factors_generic, e_lex, e_w, e_y. cbn [map seq nth_error bin_total map2 Nat.eqb].
  replace (Reqb _ 0) with false by (symmetry; apply Reqb_false_iff; lra). do 3 f_equal; [field|f_equal; field].
Qed.

Lemma ex_c32 : calibrate true (bincounts e_lex e_w 3) [1; 2; 5] = [0; 1; 0] /\
  calibrate false (bincounts e_lex e_w 3) [1; 2; 5] = [-8/5; -3/5; 12/5].
Proof.
  unfold calibrate, centred, bincounts, e_lex, e_w. cbn [map seq bin_total Nat.eqb removelast map2 sumR app].
  split; repeat (apply f_equal2; [field|]); reflexivity.
Qed.

Definition e_c : list R := [1; 0; 1].
Lemma e_class : forall x, In x e_c -> x = 0 \/ x = 1.
Proof. unfold e_c. cbn. intros x [<-|[<-|[<-|[]]]]; auto. Qed.
(** Oracles with the assumed properties. *)
Lemma e_oracles : (forall a b q : R, 0 < a -> 0 < b -> 0 < q < 1 -> 0 < (fun _ _ q : R => q) a b q < 1) /\
  (forall a b q q', 0 < a -> 0 < b -> 0 < q -> q < q' -> q' < 1 -> (fun _ _ q : R => q) a b q < (fun _ _ q : R => q) a b q') /\
  (forall t t', -1 < t -> t < t' -> t' < 1 -> (fun t : R => t) t < (fun t : R => t) t') /\
  (forall a q, 0 < a -> 0 < q < 1 -> (fun _ _ q : R => q) a a (1 - q) = 1 - (fun _ _ q : R => q) a a q) /\
  (forall t, -1 < t < 1 -> (fun t : R => t) (- t) = - (fun t : R => t) t).
Proof. repeat split; intros; try lra. Qed.

Lemma ex_c54_hypotheses : sumR e_w <> 0 /\ 0 < bin_sum e_lex (at_row e_w) 0 /\ 0 < bin_sum e_lex (at_row e_w) 2.
Proof. unfold bin_sum, e_lex, e_w. cbn. lra. Qed.

Lemma weightless_bin_refuted : exists lex n y w s k,
  per_row lex y /\ per_row lex w /\ per_row lex s /\ nonneg w /\ 0 < sumR w /\ (k < n)%nat /\
  nth_error (location_parameters lex n y w s) k = Some None.
Proof.
  exists [0; 1]%nat, 3%nat, [1; 2], [1; 0], [0; 0], 1%nat. do 3 (split; [reflexivity|]).
  split; [intros x; cbn; intros [<-|[<-|[]]]; lra|]. split; [cbn; lra|]. split; [lia|].
  apply location_weightless; [reflexivity|lia|exists 1%nat; reflexivity|]. unfold bin_sum. cbn. lra.
Qed.

Lemma constant_target_refuted : exists lex n y w s, per_row lex y /\ per_row lex w /\ per_row lex s /\
  (forall x, In x w -> 0 < x) /\ (1 <= n)%nat /\
  forall k, (k < n)%nat -> nth_error (locpoisson_parameters lex n y w s) k = Some None.
Proof.
  exists [0; 1]%nat, 3%nat, [5; 5], [1; 1], [0; 0]. do 3 (split; [reflexivity|]).
  split; [cbn; intros x [<-|[<-|[]]]; lra|]. split; [lia|].
  intros k Hk. apply (locpoisson_constant _ _ _ _ _ _ 5); auto; try reflexivity; [cbn; intros x [<-|[<-|[]]]; auto|cbn; lra].
Qed.

Lemma ex_stddev : weighted_stddev e_y e_w = Some (sqrt (sumR (map2 (fun wi yi => wi * (yi - 2) ^ 2) e_w e_y) / (5/2))) /\
  0 < sqrt (sumR (map2 (fun wi yi => wi * (yi - 2) ^ 2) e_w e_y) / (5/2)).
Proof.
  unfold weighted_stddev, weighted_mean, e_y, e_w. cbn [map2 sumR].
  replace (Reqb (1 + (1 + (1/2 + 0))) 0) with false by (symmetry; apply Reqb_false_iff; lra).
  replace ((4 * 1 + (0 * 1 + (2 * (1/2) + 0))) / (1 + (1 + (1/2 + 0)))) with 2 by field.
  split; [do 2 f_equal; field|apply sqrt_lt_R0; lra].
Qed.

(** One round of the location model on two bins of weights 1 and 3. *)
Definition l_feature : feature :=
  {| f_dim := 1; f_rows := [[Fin 0%Q]; [Fin 1%Q]]; f_hier := false; f_mnl := false; f_ext := false |}.
Definition l_prior : preds := {| p_factors := [7; 7]; p_exponents := [0; 0] |}.
Definition l_calc (_ _ : nat) (_ : preds) : list R := [1; 0; 0].
Definition l_w : list R := [1; 3].
Definition l_state : state := {|
  t_preds := {| p_factors := [31/4; 27/4]; p_exponents := [0; 0] |};
  t_feats := [{| s_fitted := true; s_factors := [3/4; -1/4; -1/4]; s_old := [0; 0; 0]; s_agg := Some [3/4; -1/4; -1/4]; s_zero := false |}];
  t_iter := 1; t_diverging := 0; t_isdiv := false; t_loss := 1; t_losschange := 0; t_delta := 5/12 |}.
Lemma l_run : fit_main (ex_cfg true false false 0 1) [l_feature] l_calc ex_smooth (location_calibration [l_feature] l_w)
  ex_rate flat_loss 6 l_prior = Some (Ok l_state).
Proof.
  unfold fit_main. change (flat_loss l_prior) with 1.
  rewrite (loop_step _ _ _ _ _ _ _ _ _ _ l_state).
  - rewrite loop_end; [|unfold l_state; evals; reflexivity]. unfold l_state. evals. reflexivity.
  - evals. reflexivity.
  - unfold l_state. evals. match_up.
Qed.
Lemma l_hypotheses : well_shaped 2 [l_feature] l_prior /\ List.length l_w = 2%nat /\
  (forall f, In f [l_feature] -> f_ext f = false /\ (1 <= f_dim f)%nat /\
     sumR (map2 (fun b wj => if f_mnl f && Nat.eqb b (f_finite f) then 0 else wj) (f_lex f) l_w) <> 0).
Proof.
  split; [|split; [reflexivity|]].
  - split; [reflexivity|]. split; [reflexivity|]. intros f [<-|[]]. split; [reflexivity|]. intros row [<-|[<-|[]]]; reflexivity.
  - intros f [<-|[]]. split; [reflexivity|]. split; [cbn; lia|]. unfold l_w. comp. lra.
Qed.
