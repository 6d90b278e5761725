(** C109: what the stopping criteria decide. *)
From Coq Require Import ZArith NArith QArith List Bool Reals.
From Verif.Model Require Import Num Train Predict Link Quantile LossModes Dispersion Price WholeFit BinFit PriceFit BinSmoothers.
From Verif.Spec Require Import StopSpec.
From Verif.Proofs Require Import TrainExamples GenericFacts WholeExamples BinFitExamples PriceFitExamples RefitExamples StopFacts StopExamples.
Import ListNotations.
Local Open Scope R_scope.

(** ** C109 *)
Theorem C109_criteria : forall gm bppf erfinv bad k prior gs cfg rate D,
  criteria_only_stop (fun c fuel => whole_fit gm bppf erfinv bad k prior gs (with_criteria cfg c) rate fuel D).
Proof. exact whole_only_stops. Qed.
Print Assumptions C109_criteria.
Example C109_criteria_case : forall gm bppf erfinv bad, stricter (own w_cfg) longer /\
  whole_fit gm bppf erfinv bad g_kind false [r_style [c_a]] (with_criteria w_cfg (own w_cfg)) ex_rate 1 d_one = Trained r_one.
Proof. exact (fun gm bppf erfinv bad => conj own_stricter (run_one gm bppf erfinv bad)). Qed.

Theorem C109_criteria_costs : forall sort minimize bppf erfinv reorder bad m prior gs cfg rate D,
  criteria_only_stop (fun c fuel => mode_fit sort minimize bppf erfinv reorder bad m prior gs (with_criteria cfg c) rate fuel D).
Proof. exact mode_only_stops. Qed.
Print Assumptions C109_criteria_costs.
Example C109_criteria_costs_case : forall bppf erfinv bad,
  mode_fit insertion_sort try_two bppf erfinv as_is bad (AdditiveQuantile (1/2)) false [w_group keep_values] (with_criteria w_cfg (own w_cfg)) ex_rate 1 heavy =
  Trained q_model.
Proof. exact quantile_run. Qed.

Theorem C109_criteria_dispersion : forall lgamma gamma bayes n_steps prior gs cfg rate D,
  criteria_only_stop (fun c fuel => dispersion_fit lgamma gamma bayes n_steps prior gs (with_criteria cfg c) rate fuel D).
Proof. exact dispersion_only_stops. Qed.
Print Assumptions C109_criteria_dispersion.
Example C109_criteria_dispersion_case :
  dispersion_fit (fun _ => None) 1 false 1 false [w_group keep_values] (with_criteria w_cfg (own w_cfg)) ex_rate 1 mean_heavy = Trained d_model.
Proof. exact dispersion_run. Qed.

Theorem C109_criteria_price : forall gm a c0 vl prior gs cfg rate D,
  criteria_only_stop (fun c fuel => price_fit gm a c0 vl prior gs (with_criteria cfg c) rate fuel D).
Proof. exact price_only_stops. Qed.
Print Assumptions C109_criteria_price.
Example C109_criteria_price_case : forall a c, exists l o,
  price_fit third a c 1 false [(u_group, true)] (with_criteria p_cfg (own p_cfg)) ex_rate 1 p_heavy = Trained (p_model 11 l o).
Proof. exact p_heavy_run. Qed.
