(** Trainings with their criteria. *)
From Coq Require Import ZArith NArith QArith List Bool Reals Lra Lia.
From Verif.Proofs Require Import TrainExamples GenericFacts WholeExamples BinFitExamples PriceFitExamples RefitExamples.
From Verif.Model Require Import Num LexBins Train Predict Link Quantile LossModes Price WholeFit BinFit PriceFit BinSmoothers.
From Verif.Spec Require Import StopSpec.
Import ListNotations.
Local Open Scope R_scope.

Definition own (cfg : settings) : criteria := {| k_iterations := c_maxiter cfg; k_factor := c_minfactor cfg; k_loss := c_minloss cfg |}.
Definition longer : criteria := {| k_iterations := 20; k_factor := c_minfactor w_cfg - 1; k_loss := c_minloss w_cfg |}.
Lemma own_stricter : stricter (own w_cfg) longer.
Proof. unfold stricter. cbn. split; [lia|]. split; lra. Qed.
