(** C108: what matters in prior predictions. *)
From Coq Require Import ZArith NArith QArith List Bool Reals.
From Verif.Model Require Import Num Train Predict Link Quantile LossModes Price WholeFit BinFit PriceFit BinSmoothers.
From Verif.Spec Require Import PriorSpec.
From Verif.Proofs Require Import TrainExamples GenericFacts WholeExamples BinFitExamples PriceFitExamples PriorFacts PriorExamples.
Import ListNotations.
Local Open Scope R_scope.

(** ** C108 *)
(** Regressors: prior predictions multiplied by a constant, or moved by one. *)
Theorem C108_ratios : forall gm bppf erfinv bad k gs cfg rate fuel c D,
  allowed_move (kind_link k) c -> usable_prior (kind_link k) D -> (forall a, k <> GBSRegressor a) ->
  same_end (fun t t' => o_groups t' = o_groups t /\
      forall X, whole_predict k true t' (map (moved_row (kind_link k) c) X) = whole_predict k true t X)
    (whole_fit gm bppf erfinv bad k true gs cfg rate fuel D)
    (whole_fit gm bppf erfinv bad k true gs cfg rate fuel (map (moved_row (kind_link k) c) D)).
Proof. exact whole_moved. Qed.
Print Assumptions C108_ratios.
Example C108_ratios_case : forall gm bppf erfinv bad, allowed_move (kind_link LocationRegressor) 5 /\
  usable_prior (kind_link LocationRegressor) heavy_prior /\
  exists t, whole_fit gm bppf erfinv bad LocationRegressor true [w_group explicit_mean] w_cfg ex_rate 1 heavy_prior = Trained t.
Proof. exact (fun gm bppf erfinv bad => conj I (conj (proj2 (proj2 heavy_same_prior)) (heavy_prior_fit gm bppf erfinv bad))). Qed.

(** Quantile regression and costs of the user. *)
Theorem C108_ratios_costs : forall sort minimize bppf erfinv reorder bad m gs cfg rate fuel c D, by_position reorder ->
  allowed_move (mode_link m) c -> usable_prior (mode_link m) D ->
  same_end (fun t t' => o_groups t' = o_groups t /\
      forall X, mode_predict m true t' (map (moved_row (mode_link m) c) X) = mode_predict m true t X)
    (mode_fit sort minimize bppf erfinv reorder bad m true gs cfg rate fuel D)
    (mode_fit sort minimize bppf erfinv reorder bad m true gs cfg rate fuel (map (moved_row (mode_link m) c) D)).
Proof. exact mode_moved. Qed.
Print Assumptions C108_ratios_costs.
Example C108_ratios_costs_case : forall bppf erfinv bad, by_position as_is /\ allowed_move (mode_link (AdditiveQuantile (1/2))) 5 /\
  usable_prior (mode_link (AdditiveQuantile (1/2))) heavy_prior /\ exists t,
  mode_fit insertion_sort try_two bppf erfinv as_is bad (AdditiveQuantile (1/2)) true [w_group keep_values] w_cfg ex_rate 1 heavy_prior = Trained t.
Proof. exact (fun bppf erfinv bad => conj as_is_by_position (conj I (conj (proj2 (proj2 heavy_same_prior)) (quantile_prior_fit bppf erfinv bad)))). Qed.

(** The price model. *)
Theorem C108_ratios_price : forall gm a c0 vl gs cfg rate fuel c D, 0 < c -> usable_prior Log (map q_row D) ->
  same_end (fun t t' => o_groups t' = o_groups t /\
      forall X, price_fit_predict true t' (map (moved_price c) X) = price_fit_predict true t X)
    (price_fit gm a c0 vl true gs cfg rate fuel D)
    (price_fit gm a c0 vl true gs cfg rate fuel (map (moved_price c) D)).
Proof. exact price_moved. Qed.
Print Assumptions C108_ratios_price.
Example C108_ratios_price_case : forall a c, usable_prior Log (map q_row p_heavy_prior) /\
  exists t, price_fit third a c 1 true [(u_group, true)] p_cfg ex_rate 1 p_heavy_prior = Trained t.
Proof. exact (fun a c => conj (proj2 (proj2 p_heavy_same_prior)) (price_prior_fit a c)). Qed.

(** The same prior prediction for all rows: as without prior predictions. *)
Theorem C108_constant : forall gm bppf erfinv bad k gs cfg rate fuel p D,
  (forall a, k <> GBSRegressor a) -> link_func (kind_link k) p <> None -> prior_weight D <> 0 -> all_priors p D ->
  whole_fit gm bppf erfinv bad k true gs cfg rate fuel D = whole_fit gm bppf erfinv bad k false gs cfg rate fuel D /\
  forall t X, whole_fit gm bppf erfinv bad k false gs cfg rate fuel D = Trained t -> all_priors p X ->
    whole_predict k true t X = whole_predict k false t X.
Proof. exact whole_constant. Qed.
Print Assumptions C108_constant.
Theorem C108_constant_costs : forall sort minimize bppf erfinv reorder bad m gs cfg rate fuel p D,
  link_func (mode_link m) p <> None -> prior_weight D <> 0 -> all_priors p D ->
  mode_fit sort minimize bppf erfinv reorder bad m true gs cfg rate fuel D = mode_fit sort minimize bppf erfinv reorder bad m false gs cfg rate fuel D /\
  forall t X, mode_fit sort minimize bppf erfinv reorder bad m false gs cfg rate fuel D = Trained t -> all_priors p X ->
    mode_predict m true t X = mode_predict m false t X.
Proof. exact mode_constant. Qed.
Print Assumptions C108_constant_costs.
Theorem C108_constant_price : forall gm a c0 vl gs cfg rate fuel p D, 0 < p -> prior_weight (map q_row D) <> 0 -> all_priors p (map q_row D) ->
  price_fit gm a c0 vl true gs cfg rate fuel D = price_fit gm a c0 vl false gs cfg rate fuel D /\
  forall t X, price_fit gm a c0 vl false gs cfg rate fuel D = Trained t -> all_priors p (map q_row X) ->
    price_fit_predict true t X = price_fit_predict false t X.
Proof. exact price_constant. Qed.
Print Assumptions C108_constant_price.
Example C108_constant_case : link_func Identity 2 <> None /\ all_priors 2 heavy_prior /\ prior_weight heavy_prior <> 0 /\
  all_priors 2 (map q_row p_heavy_prior) /\ prior_weight (map q_row p_heavy_prior) <> 0.
Proof.
  exact (conj (identity_linked 2) (conj (proj1 heavy_same_prior) (conj (proj1 (proj2 heavy_same_prior))
    (conj (proj1 p_heavy_same_prior) (proj1 (proj2 p_heavy_same_prior)))))).
Qed.
