(** Property C117: in the first iterations of a training with hierarchical feature groups these groups are trained as if
    they were alone. *)
From Coq Require Import List Reals.
From Verif.Model Require Import Num Train Predict Link Estimators WholeFit BinSmoothers.
From Verif.Spec Require Import TrainSpec HierSpec.
From Verif.Proofs Require Import TrainExamples WholeExamples HierWhole HierExamples.
Import ListNotations.
Local Open Scope R_scope.

(** ** C117: the other groups have no influence. *)
Theorem C117_other_groups_ignored :
  forall (gamma_median : R -> R) (beta_ppf : R -> R -> R -> R) (erfinv : R -> R) (bad : R) (k : kind) (prior : bool) (gs : list group)
         (cfg : settings) (rate : nat -> nat -> R) (D : list WholeFit.sample) (scale offset : R) (st : state),
  c_hier cfg = true ->
  training_state gamma_median beta_ppf erfinv bad k prior gs cfg rate D scale offset st ->
  (t_iter st <= c_thier cfg)%nat ->
  exists st', training_state gamma_median beta_ppf erfinv bad k prior (hier_groups gs) cfg
      (fun it j => rate it (nth j (hier_positions 0 gs) 0%nat)) (hier_rows gs D) scale offset st' /\
    same_progress st st' /\ t_feats st' = hier_states gs (t_feats st).
Proof. exact hier_phase. Qed.
Print Assumptions C117_other_groups_ignored.

Theorem C117_other_groups_may_be_added :
  forall (gamma_median : R -> R) (beta_ppf : R -> R -> R -> R) (erfinv : R -> R) (bad : R) (k : kind) (prior : bool) (gs : list group)
         (cfg : settings) (rate : nat -> nat -> R) (D : list WholeFit.sample) (scale offset : R) (st' : state),
  c_hier cfg = true ->
  training_state gamma_median beta_ppf erfinv bad k prior (hier_groups gs) cfg
    (fun it j => rate it (nth j (hier_positions 0 gs) 0%nat)) (hier_rows gs D) scale offset st' ->
  (t_iter st' <= c_thier cfg)%nat -> t_diverging st' = 0%nat ->
  exists st, training_state gamma_median beta_ppf erfinv bad k prior gs cfg rate D scale offset st /\
    same_progress st st' /\ t_feats st' = hier_states gs (t_feats st).
Proof. exact hier_phase_back. Qed.
Print Assumptions C117_other_groups_may_be_added.

(** A training with a group that waits and a hierarchical group, after its first iteration: the predictions have moved. *)
Example C117_case :
  forall (gamma_median : R -> R) (beta_ppf : R -> R -> R -> R) (erfinv : R -> R) (bad : R),
  hier_groups [w_group explicit_mean; h_group] = [h_group] /\
  exists st, training_state gamma_median beta_ppf erfinv bad LocationRegressor false [w_group explicit_mean; h_group] h_cfg ex_rate heavy
      (1/1000) (1/1000) st /\
    (t_iter st <= c_thier h_cfg)%nat /\ p_factors (t_preds st) = [1/1000 + w_amp (1201/100); 1/1000 - w_amp (1201/100)].
Proof. intros gm bppf erfinv bad. exact (conj eq_refl (h_both gm bppf erfinv bad)). Qed.
