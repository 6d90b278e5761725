(** Concrete trained models: witnesses and non-vacuity. *)
From Coq Require Import ZArith QArith Qround List Bool Reals Lia Lra.
From Verif.Model Require Import Num LexBins Train Predict.
From Verif.Spec Require Import LexSpec TrainSpec PredictSpec.
From Verif.Proofs Require Import LexFacts TrainFacts TrainHistory TrainBounds TrainExamples PredictFacts NeutralFacts.
Import ListNotations.
Local Open Scope R_scope.

Lemma not_missing_0 : ~ missing_entry [Fin 0].
Proof. intros (x & [<-|[]] & [H|H]); cbn in H; discriminate. Qed.
Lemma ex_whole h m : forall f, In f [ex_feature h m] -> f_dim f = 1%nat -> whole_rows (f_rows f).
Proof.
  intros f [<-|[]] _ row x [<-|[]] [<-|[]] _. exists 0%Z, 0%Q. split; reflexivity.
Qed.
Lemma ex_dim h m : forall f, In f [ex_feature h m] -> (1 <= f_dim f)%nat.
Proof. intros f [<-|[]]. cbn. lia. Qed.

Lemma g_predict : predict_extended (trained_model gfeats g2) ex_prior (training_data gfeats 1) = st_preds (1/2).
Proof. evals. match_up. Qed.
Lemma n_predict : predict_extended (trained_model gfeats n2) ex_prior (training_data gfeats 1) = st_preds 2.
Proof. evals. match_up. Qed.
Lemma n_one_per_bin : one_per_bin gfeats n_calc ex_id.
Proof.
  split; [|reflexivity]. intros [|[|i]] f it p H; cbn in H; try discriminate. injection H as <-. destruct it; reflexivity.
Qed.

(** ** Fractional bin numbers *)
Definition q_feature : feature :=
  {| f_dim := 1; f_rows := [[Fin (3#5)%Q]; [Fin 1%Q]]; f_hier := false; f_mnl := false; f_ext := false |}.
Definition q_prior : preds := {| p_factors := [0; 0]; p_exponents := [0; 0] |}.
Definition q_calc (_ _ : nat) (_ : preds) : list R := [1/4; 1/8; 0].
Notation qcfg := (ex_cfg true true false 0 1).
Definition q1 : state := {|
  t_preds := {| p_factors := [1/4; 1/8]; p_exponents := [0; 0] |};
  t_feats := [{| s_fitted := true; s_factors := [1/4; 1/8; 0]; s_old := [0; 0; 0]; s_agg := Some [1/4; 1/8; 0]; s_zero := false |}];
  t_iter := 1; t_diverging := 0; t_isdiv := false; t_loss := 1; t_losschange := 0; t_delta := 1/8 |}.
Lemma q_run : fit_main qcfg [q_feature] q_calc ex_smooth ex_id ex_rate flat_loss 5 q_prior = Some (Ok q1).
Proof.
  unfold fit_main. rewrite (loop_step _ _ _ _ _ _ _ _ _ _ q1).
  - rewrite loop_end; [|evals; reflexivity]. evals. reflexivity.
  - evals. reflexivity.
  - pose proof ln2_quarter. pose proof ln_limits_1. evals. match_up.
Qed.
Lemma q_predict : predict_extended (trained_model [q_feature] q1) q_prior (training_data [q_feature] 2) =
  {| p_factors := [1/8; 1/8]; p_exponents := [0; 0] |}.
Proof. evals. match_up. Qed.
Lemma q_well_shaped : well_shaped 2 [q_feature] q_prior.
Proof.
  split; [reflexivity|]. split; [reflexivity|]. intros f [<-|[]]. split; [reflexivity|].
  intros row [<-|[<-|[]]]; reflexivity.
Qed.
Lemma q_one_per_bin : one_per_bin [q_feature] q_calc ex_id.
Proof.
  split; [|reflexivity]. intros [|[|i]] f it p H; cbn in H; try discriminate. injection H as <-. reflexivity.
Qed.

(** ** A category that never occurs *)
Definition u_feature : feature :=
  {| f_dim := 1; f_rows := [[Fin 0%Q]; [Fin 2%Q]]; f_hier := false; f_mnl := true; f_ext := false |}.
Definition u_calc (_ _ : nat) (_ : preds) : list R := [1/4; 1/4; 1/8; 1/4].
Definition u_smooth (i it : nat) (p : preds) (v : list R) : nat -> option R :=
  discontinuous_cut (f_nbins u_feature) (finite_bin_weightsums u_feature [1%Q; 1%Q]) (fun k => Some (nth k v 0)).
Definition u1 : state := {|
  t_preds := {| p_factors := [1/4; 1/8]; p_exponents := [0; 0] |};
  t_feats := [{| s_fitted := true; s_factors := [1/4; 0; 1/8; 0]; s_old := [0; 0; 0; 0]; s_agg := Some [1/4; 0; 1/8; 0]; s_zero := false |}];
  t_iter := 1; t_diverging := 0; t_isdiv := false; t_loss := 1; t_losschange := 0; t_delta := 3/32 |}.
Lemma u_run : fit_main qcfg [u_feature] u_calc u_smooth ex_id ex_rate flat_loss 5 q_prior = Some (Ok u1).
Proof.
  unfold fit_main. rewrite (loop_step _ _ _ _ _ _ _ _ _ _ u1).
  - rewrite loop_end; [|evals; reflexivity]. evals. reflexivity.
  - evals. reflexivity.
  - pose proof ln2_quarter. pose proof ln_limits_1. evals. match_up.
Qed.
Lemma u_well_shaped : well_shaped 2 [u_feature] q_prior.
Proof.
  split; [reflexivity|]. split; [reflexivity|]. intros f [<-|[]]. split; [reflexivity|].
  intros row [<-|[<-|[]]]; reflexivity.
Qed.
Lemma u_one_per_bin : one_per_bin [u_feature] u_calc ex_id.
Proof.
  split; [|reflexivity]. intros [|[|i]] f it p H; cbn in H; try discriminate. injection H as <-. reflexivity.
Qed.
Lemma u_not_occurs : ~ occurs u_feature [1%Q; 1%Q] [1%Z].
Proof.
  intros (j & row & w & Hr & _ & _ & _ & H). apply nth_error_In in Hr.
  destruct Hr as [<-|[<-|[]]]; vm_compute in H; discriminate.
Qed.
Lemma u_valid : valid_tuple (f_nbins u_feature) [1%Z].
Proof. replace (f_nbins u_feature) with [3%Z] by (vm_compute; reflexivity). constructor; [lia|constructor]. Qed.

(** ** Missing values declared not to be learned, after a divergence *)
Lemma w_missing : predict_factors (store (ex_feature false true) (hd (init_fstate (ex_feature false true)) (t_feats w2))) [[NaN]] = [5 + ln (8/10)].
Proof. evals. match_up. Qed.
Lemma w_nonzero : 5 + ln (8/10) <> 0.
Proof. pose proof ln_facts. lra. Qed.
Lemma nan_missing : missing_entry [NaN].
Proof. exists NaN. split; [left; auto|left; reflexivity]. Qed.
