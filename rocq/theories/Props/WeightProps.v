(** Weights as multiplicities for the models whose uncertainties are not linear in
    the weights. *)
From Coq Require Import ZArith QArith List Bool Reals Lra.
From Verif.Model Require Import Num LexBins Train Predict WholeFit BinSmoothers.
From Verif.Spec Require Import DataSpec UncertaintySpec.
From Verif.Proofs Require Import UnsmoothedFacts TrainExamples WholeExamples WeightExamples.
Import ListNotations.
Local Open Scope R_scope.

(** C85, proved for all models but [CBLocPoissonRegressor] where the smoothers do
    not look at the uncertainties of the bin estimates: rows with weights act as so
    many copies.  Missing: the other smoothers for the location and the GBS model,
    and [CBLocPoissonRegressor], for which it is false (below and in WholeProps). *)
Theorem C85_unsmoothed_partial : forall gamma_median beta_ppf erfinv bad k prior gs cfg rate fuel D D',
  k <> LocPoissonRegressor -> (forall g, In g gs -> ignores_uncertainties g) ->
  well_formed gs D -> same_content D D' ->
  whole_fit gamma_median beta_ppf erfinv bad k prior gs cfg rate fuel D =
  whole_fit gamma_median beta_ppf erfinv bad k prior gs cfg rate fuel D'.
Proof. exact weights_without_uncertainties. Qed.
Print Assumptions C85_unsmoothed_partial.

(** The GBS model on two rows with weight two. *)
Example C85_unsmoothed_example : forall gm bppf erfinv bad,
  (forall g, In g [w_group bin_values] -> ignores_uncertainties g) /\
  well_formed [w_group bin_values] p_heavy /\ same_content p_heavy p_twice /\
  length p_heavy = 2%nat /\ length p_twice = 4%nat /\
  exists m, whole_fit gm bppf erfinv bad (GBSRegressor 0) false [w_group bin_values] w_cfg ex_rate 1 p_heavy = Trained m /\
    map m_values (o_groups m) = [[2/3; -2/3]].
Proof.
  intros. split; [intros g [<-|[]] c w u u' v b _; reflexivity|]. split; [apply p_well_formed|].
  split; [exact p_heavy_twice|]. split; [reflexivity|]. split; [reflexivity|].
  destruct (g_plain_fit gm bppf erfinv bad) as (l & E). eexists. split; [exact E|reflexivity].
Qed.

(** With a smoother that weighs the bins by their uncertainties the GBS model
    learns different contributions from rows with weight two and from the same rows
    twice. *)
Theorem C85_gbs_refuted : forall gamma_median beta_ppf erfinv bad, exists gs cfg rate fuel D D' m m',
  well_formed gs D /\ same_content D D' /\
  whole_fit gamma_median beta_ppf erfinv bad (GBSRegressor 0) false gs cfg rate fuel D = Trained m /\
  whole_fit gamma_median beta_ppf erfinv bad (GBSRegressor 0) false gs cfg rate fuel D' = Trained m' /\
  o_groups m <> o_groups m'.
Proof. exact weights_gbs. Qed.
Print Assumptions C85_gbs_refuted.

(** [CBLocPoissonRegressor] does so even without smoothing. *)
Theorem C85_locpoisson_refuted : forall gamma_median beta_ppf erfinv bad, exists gs cfg rate fuel D D' m m',
  well_formed gs D /\ same_content D D' /\ (forall g, In g gs -> g_smoother g = bin_values) /\
  whole_fit gamma_median beta_ppf erfinv bad LocPoissonRegressor false gs cfg rate fuel D = Trained m /\
  whole_fit gamma_median beta_ppf erfinv bad LocPoissonRegressor false gs cfg rate fuel D' = Trained m' /\
  o_groups m <> o_groups m'.
Proof. exact weights_locpoisson. Qed.
Print Assumptions C85_locpoisson_refuted.
