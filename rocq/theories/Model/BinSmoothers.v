(** Smoothers that keep one value per bin, on the bins of a training
    (smoothing/onedim.py, smoothing/multidim.py, smoothing/meta_smoother.py), in the
    form in which a feature group uses them: the prediction for regular bin [k] from
    the bin centres, the weight sums, the uncertainties and the values of the
    regular bins. *)
From Coq Require Import ZArith List Bool Reals.
From Verif.Model Require Import Num LexBins Train Regularize.
Import ListNotations.
Local Open Scope R_scope.

Definition bin_smoother := list (list Z) -> list R -> list R -> list R -> nat -> option R.

(** [BinValuesSmoother] (onedim.py:87-89, multidim.py:97-100). *)
Definition bin_values : bin_smoother := fun _ _ _ values k => nth_error values k.

(** [WeightedMeanSmoother] (onedim.py:216-220, multidim.py:226-231). *)
Definition weighted_mean_bins (prior_prediction : option R) : bin_smoother := fun _ _ uncertainties values k =>
  match regularize_to_error_weighted_mean values uncertainties prior_prediction with
  | Some smoothed => nth k smoothed None
  | None => None
  end.

(** [WeightedMeanSmootherNeighbors] (onedim.py:230-234). *)
Definition weighted_mean_neighbors : bin_smoother := fun centres weights uncertainties values k =>
  if Nat.ltb (length values) 3 then weighted_mean_bins None centres weights uncertainties values k
  else match regularize_neighbors 3 values uncertainties with
       | Some smoothed => nth k smoothed None
       | None => None
       end.

(** [RegularizeToPriorExpectationSmoother] (onedim.py:151-159, multidim.py:168-177)
    with one prior expectation for all bins. *)
Definition prior_expectation_bins (prior threshold : R) : bin_smoother := fun _ _ uncertainties values k =>
  nth k (map2 (fun v u => regularize_to_prior_expectation v u prior threshold) values uncertainties) None.

(** [RegularizeToOneSmoother] (onedim.py:173-174, multidim.py:197-198). *)
Definition one_bins (threshold : R) : bin_smoother := prior_expectation_bins 1 threshold.

(** [RegressionTypeSmoother] with the type discontinuous on the bin centres
    (meta_smoother.py:155-189): bins without weight have no value. *)
Definition cut_unseen (s : bin_smoother) : bin_smoother := fun centres weights uncertainties values k =>
  if Reqb (nth k weights 0) 0 then None else s centres weights uncertainties values k.

(** [NormalizationSmoother] (meta_smoother.py:62-117): the smoother works on the
    differences from the mean of the bins, weighted with their weight sums. Numbers are
    reals, so the replacement of a norm that is not finite (103-109) does not arise. *)
Definition bins_norm (weights values : list R) : R :=
  let weightsum := sumR weights in
  if Rltb 0 weightsum then sumR (map2 Rmult values weights) / weightsum else 0.
Definition normalised (s : bin_smoother) : bin_smoother := fun centres weights uncertainties values k =>
  let norm := bins_norm weights values in
  option_map (fun v => v + norm) (s centres weights uncertainties (map (fun v => v - norm) values) k).

(** The smoother that [SmootherChoiceWeightedMean] (the default, base.py:285-287) and
    [SmootherChoiceGroupBy] take for one column flagged IS_UNORDERED: WeightedMeanSmoother
    with the prior prediction 0, inside of NormalizationRegressionTypeSmoother with the
    type discontinuous (common_smoothers.py:67-69, 85-140, 169-175, 305-311).
    [SmootherChoiceWeightedMean] takes the multidimensional variant of the same for the
    feature groups of several columns (common_smoothers.py:306-308) with an ordered or
    unordered one among them. *)
Definition default_unordered : bin_smoother := cut_unseen (normalised (weighted_mean_bins (Some 0))).

(** ... and for [explicit_smoothers] with [WeightedMeanSmoother()], without prior
    prediction, and the argument [use_normalization=False] (common_smoothers.py:137-138,
    171-174, 219-226). *)
Definition explicit_mean : bin_smoother := cut_unseen (weighted_mean_bins None).
