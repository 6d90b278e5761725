(** C107: the loss that training reports. *)
From Coq Require Import ZArith NArith QArith List Bool Reals.
From Verif.Model Require Import Num Train Predict Link Quantile LossModes Dispersion Price WholeFit BinFit PriceFit.
From Verif.Spec Require Import DataSpec PredictSpec QuantileSpec InsampleSpec.
From Verif.Proofs Require Import TrainExamples WholeExamples BinFitExamples PriceFitExamples GenericFacts RefitExamples InsampleFacts InsampleExamples.
Import ListNotations.
Local Open Scope R_scope.

(** ** C107 *)
(** The regressors and classifiers. [CBLocPoissonRegressor] only for positive predictions:
    [predict] replaces the others by 0. *)
Theorem C107_loss_partial : forall gm bppf erfinv bad k prior gs cfg rate fuel D t, c_aggregate cfg = true -> binned_rows gs D ->
  whole_fit gm bppf erfinv bad k prior gs cfg rate fuel D = Trained t ->
  length (whole_predict k prior t D) = length D /\
  (match k with GBSRegressor _ => visits D <> 0 | LocPoissonRegressor => Forall (fun v => 0 < v) (whole_predict k prior t D) | _ => True end ->
   o_loss t = mean_deviation k D (whole_predict k prior t D)).
Proof. exact whole_insample. Qed.
Print Assumptions C107_loss_partial.
Example C107_loss_case : forall gm bppf erfinv bad, c_aggregate w_cfg = true /\ binned_rows [r_style [c_a]] d_one /\ visits d_one <> 0 /\
  whole_fit gm bppf erfinv bad g_kind false [r_style [c_a]] w_cfg ex_rate 1 d_one = Trained r_one.
Proof. exact (fun gm bppf erfinv bad => conj eq_refl (conj d_one_binned (conj d_one_visits (run_one gm bppf erfinv bad)))). Qed.

(** The loss that [CBLocPoissonRegressor] reports counts negative predictions, which
    [predict] never returns. *)
Theorem C107_counts_refuted : exists gs D, binned_rows gs D /\ forall gm bppf erfinv bad, exists t,
  whole_fit gm bppf erfinv bad LocPoissonRegressor false gs w_cfg ex_rate 1 D = Trained t /\
  o_loss t <> mean_deviation LocPoissonRegressor D (whole_predict LocPoissonRegressor false t D).
Proof. exact counts_differ. Qed.
Print Assumptions C107_counts_refuted.

(** Quantile regression and costs of the user. *)
Theorem C107_costs : forall sort minimize bppf erfinv reorder bad m prior gs cfg rate fuel D t, c_aggregate cfg = true -> binned_rows gs D ->
  mode_fit sort minimize bppf erfinv reorder bad m prior gs cfg rate fuel D = Trained t ->
  length (mode_predict m prior t D) = length D /\
  forall l, mode_costs m (mode_predict m prior t D) (map x_y D) (map x_w D) = Some l -> o_loss t = l.
Proof. exact mode_insample. Qed.
Print Assumptions C107_costs.
Example C107_costs_case : forall bppf erfinv bad, binned_rows [w_group keep_values] heavy /\
  mode_fit insertion_sort try_two bppf erfinv as_is bad (AdditiveQuantile (1/2)) false [w_group keep_values] w_cfg ex_rate 1 heavy = Trained q_model /\
  exists l, mode_costs (AdditiveQuantile (1/2)) (mode_predict (AdditiveQuantile (1/2)) false q_model heavy) (map x_y heavy) (map x_w heavy) = Some l.
Proof. exact (fun bppf erfinv bad => conj heavy_binned (conj (quantile_run bppf erfinv bad) (heavy_costs _))). Qed.

(** The dispersion estimator, with the means that it was given. *)
Theorem C107_dispersion : forall lgamma gamma bayes n_steps prior gs cfg rate fuel (D : list mean_row) t,
  c_aggregate cfg = true -> binned_rows gs (map fst D) ->
  dispersion_fit lgamma gamma bayes n_steps prior gs cfg rate fuel D = Trained t ->
  length (dispersion_predict prior t (map fst D)) = length D /\
  o_loss t = loss_nbinom_c lgamma
    (map (fun e => (x_y (fst (fst e)), snd (fst e), snd e)) (combine D (dispersion_predict prior t (map fst D)))) gamma.
Proof. exact dispersion_insample. Qed.
Print Assumptions C107_dispersion.
Example C107_dispersion_case : binned_rows [w_group keep_values] (map fst mean_heavy) /\
  dispersion_fit (fun _ => None) 1 false 1 false [w_group keep_values] w_cfg ex_rate 1 mean_heavy = Trained d_model.
Proof. exact (conj mean_heavy_binned dispersion_run). Qed.

(** The price model. *)
Theorem C107_price : forall gm a c var_l prior gs cfg rate fuel D t, c_aggregate cfg = true -> binned_rows (map fst gs) (map q_row D) ->
  price_fit gm a c var_l prior gs cfg rate fuel D = Trained t ->
  length (price_fit_predict prior t D) = length D /\
  o_loss t = squares (map q_row D) (price_fit_predict prior t D) / total_weight (map q_row D).
Proof. exact price_insample. Qed.
Print Assumptions C107_price.
Example C107_price_case : forall a c, c_aggregate p_cfg = true /\ binned_rows (map fst [(u_group, true)]) (map q_row p_heavy) /\
  exists l o, price_fit third a c 1 false [(u_group, true)] p_cfg ex_rate 1 p_heavy = Trained (p_model 11 l o).
Proof. exact (fun a c => conj eq_refl (conj p_heavy_binned (p_heavy_run a c))). Qed.
