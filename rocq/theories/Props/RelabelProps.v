(** C87: renumbering the categories of a column. *)
From Coq Require Import ZArith QArith List Bool Reals.
From Verif.Model Require Import Num LexBins Train Predict WholeFit BinSmoothers.
From Verif.Spec Require Import DataSpec RelabelSpec.
From Verif.Proofs Require Import TrainExamples WholeExamples RelabelFacts RelabelExamples.
Import ListNotations.
Local Open Scope R_scope.

(** Renumbering the categories in the training data and in the rows to predict
    changes neither the baseline, nor the number of iterations, the loss, the
    failures, nor any prediction, if the smoothers treat all bins alike; a smoother
    that singles out the first bin needs renumberings that keep category 0. *)
Theorem C87_relabelling : forall gamma_median beta_ppf erfinv bad k prior gs cfg rate fuel D T,
  relabelling gs D T ->
  (forall i g, nth_error gs i = Some g ->
     label_free (g_smoother g) \/ label_free_but_first (g_smoother g) /\ Forall (fun t => t 0%Z = 0%Z) (T i)) ->
  same_up_to_labels k prior gs T
    (whole_fit gamma_median beta_ppf erfinv bad k prior gs cfg rate fuel D)
    (whole_fit gamma_median beta_ppf erfinv bad k prior gs cfg rate fuel (map (relabel T) D)).
Proof. exact relabelling_irrelevant. Qed.
Print Assumptions C87_relabelling.

(** Which smoothers these are. *)
Theorem C87_bin_values : label_free bin_values.
Proof. exact bin_values_free. Qed.
Print Assumptions C87_bin_values.
Theorem C87_prior_expectation : forall prior threshold, label_free (prior_expectation_bins prior threshold).
Proof. exact prior_expectation_free. Qed.
Print Assumptions C87_prior_expectation.
Theorem C87_weighted_mean_with_prior : forall prior, label_free (weighted_mean_bins (Some prior)).
Proof. exact weighted_mean_prior_free. Qed.
Print Assumptions C87_weighted_mean_with_prior.
Theorem C87_normalised : forall s, label_free s -> label_free (normalised s).
Proof. exact (normalised_free _). Qed.
Print Assumptions C87_normalised.
Theorem C87_default : label_free default_unordered.
Proof. exact default_unordered_free. Qed.
Print Assumptions C87_default.
Theorem C87_explicit_mean : label_free_but_first explicit_mean.
Proof. exact explicit_mean_free. Qed.
Print Assumptions C87_explicit_mean.

Example C87_example : relabelling [w_group default_unordered] spread swaps /\ map (relabel swaps) spread <> spread /\
  forall gm bppf erfinv bad, exists l,
    whole_fit gm bppf erfinv bad LocationRegressor false [w_group default_unordered] w_cfg ex_rate 1 spread =
      Trained (r_model [0; shrink * cc; - (shrink * cc)] l).
Proof.
  split; [apply spread_relabelling|]. split; [|exact spread_default_fit].
  intro E. apply (f_equal (map (fun s => x_bins s 0%nat))) in E. discriminate.
Qed.

(** The limit of the second case: with an explicitly configured WeightedMeanSmoother
    without prior prediction and without normalisation, renumberings that move category
    0 can change the training. *)
Theorem C87_explicit_mean_depends_on_first : forall gamma_median beta_ppf erfinv bad, exists gs cfg rate fuel D T,
  relabelling gs D T /\ (forall g, In g gs -> g_smoother g = explicit_mean) /\
  ~ same_up_to_labels LocationRegressor false gs T
      (whole_fit gamma_median beta_ppf erfinv bad LocationRegressor false gs cfg rate fuel D)
      (whole_fit gamma_median beta_ppf erfinv bad LocationRegressor false gs cfg rate fuel (map (relabel T) D)).
Proof. exact explicit_depends_on_labels. Qed.
Print Assumptions C87_explicit_mean_depends_on_first.
