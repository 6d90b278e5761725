(** C83: monotonic features. *)
From Coq Require Import ZArith NArith QArith Qreals List Bool Reals.
From Verif.Model Require Import Num LexBins Flags Train Estimators SmootherChoice MetaSmoothers Isotonic.
From Verif.Spec Require Import MetaSpec TrainSpec IsotonicSpec.
From Verif.Proofs Require Import TrainExamples IsotonicFacts IsotonicRuns DirectionFacts.
Import ListNotations.
Local Open Scope R_scope.

(** At its training rows the isotonic smoother is the monotone sequence that is closest
    to the values, weighted with the inverse variances … *)
Theorem C83_best_fit : forall d X y, sorted_rows X -> length X = length y ->
  exists b w v, keeps_direction d b /\ Forall2 inverse_variance (map r_u X) w /\ best_monotone b w y v /\
    predict (isotonic d) (fit (isotonic d) X y) (map (fun r => [hd NaN (r_x r)]) X) = map Some v.
Proof. exact isotonic_training. Qed.
Print Assumptions C83_best_fit.

(** … there is only one such sequence … *)
Theorem C83_best_fit_unique : forall b w y u v, length w = length y -> (forall x, In x w -> 0 < x) ->
  best_monotone b w y u -> best_monotone b w y v -> u = v.
Proof. exact best_unique. Qed.
Print Assumptions C83_best_fit_unique.

(** … and everywhere it is a monotone function within the range of the values. *)
Theorem C83_monotone : forall d X y lo hi, sorted_rows X -> X <> [] -> length X = length y ->
  (forall x, In x y -> lo <= x <= hi) ->
  exists b g, keeps_direction d b /\
    (forall rows, predict (isotonic d) (fit (isotonic d) X y) (map (fun q => [Fin q]) rows) = map (fun q => Some (g q)) rows) /\
    (forall q q', (q <= q')%Q -> if b then g q <= g q' else g q' <= g q) /\
    (forall q, lo <= g q <= hi).
Proof. exact isotonic_function. Qed.
Print Assumptions C83_monotone.

(** Without a given direction the smoother finds the one of the estimates: if they rise,
    or fall, from bin to bin, they are kept as they are. *)
Theorem C83_auto_direction : forall up X y, sorted_rows X -> length X = length y -> strictly up y ->
  predict (isotonic AutoDirection) (fit (isotonic AutoDirection) X y) (map (fun r => [hd NaN (r_x r)]) X) = map Some y.
Proof. exact auto_keeps. Qed.
Print Assumptions C83_auto_direction.

Example c83_rows : sorted_rows (smoother_rows 3 [1; 1; 1]%Q [1; 2; 0]).
Proof. exact (smoother_rows_sorted 3 _ _). Qed.

(** Training: the contributions of the bins of a column flagged as increasing
    (decreasing) increase (decrease), in every number of iterations, with every loss
    and every estimator. Missing: with a logarithmic link and aggregation it must not
    have diverged, see [C83_divergence_refuted]; columns without a direction, see
    [C83_auto_refuted]. *)
Theorem C83_training_partial : forall (K : Type) cfg features calc smooth calib rate loss prior N m f
    c ut un (explicit : list K -> option smoother) name p other s weights uncertainties,
  well_shaped N features prior -> one_per_bin features calc calib -> nth_error features m = Some f ->
  c <> ChoiceNone -> explicit [name] = None -> monotonic p ->
  choice_fct c ut un explicit [name] [p] = Some s ->
  (forall it q values k, smooth m it q values k =
     fitted_smoother (smoother_alg other s) (f_finite f) weights uncertainties it q values k) ->
  moves_all (f_finite f) (calib m) -> (forall it, 0 <= rate it m) ->
  forall fuel st, fit_main cfg features calc smooth calib rate loss fuel prior = Some (Ok st) ->
  (c_log cfg && c_aggregate cfg = false \/ t_diverging st = 0%nat) ->
  exists fs a, nth_error (t_feats st) m = Some fs /\ s_agg fs = Some a /\ length a = S (f_finite f) /\
    (monotonic_increasing p -> follows_to true (f_finite f) a) /\
    (monotonic_decreasing p -> follows_to false (f_finite f) a).
Proof. exact @monotone_training. Qed.
Print Assumptions C83_training_partial.

Example c83_training_example :
  well_shaped 2 [div_feature] div_prior /\ one_per_bin [div_feature] div_calc ex_id /\
  monotonic_increasing (N.lor IS_MONOTONIC INCREASING) /\
  choice_fct ChoiceGroupBy true false (fun _ : list unit => None) [tt] [N.lor IS_MONOTONIC INCREASING] =
    Some (Cut (Isotonic IncreasingOnly) Interpolating) /\
  moves_all (f_finite div_feature) (ex_id 0) /\
  exists st, fit_main (ex_cfg true false false 0 1) [div_feature] div_calc div_smooth ex_id ex_rate flat_loss 1 div_prior = Some (Ok st).
Proof.
  exact (conj (proj1 div_shapes) (conj (proj2 div_shapes) (conj (proj1 (proj2 div_monotonic)) (conj div_choice
    (conj (identity_moves _ 0) div_plain))))).
Qed.

(** The calibrations of the estimators move all bins alike. *)
Theorem C83_calibrations : forall features w m f, nth_error features m = Some f ->
  moves_all (f_finite f) (location_calibration features w m).
Proof. exact location_moves. Qed.
Print Assumptions C83_calibrations.

(** A location model with default smoothers for a column flagged as monotonic without
    direction: the smoother finds a direction anew in each iteration, the sum of two
    iterations has none. *)
Theorem C83_auto_refuted :
  choice_fct ChoiceGroupBy true false (fun _ : list unit => None) [tt] [IS_MONOTONIC] = Some auto_smoother /\
  exists st s a,
  fit_main (ex_cfg true false false 0 2) [auto_feature] auto_calc auto_smooth auto_calib ex_rate auto_loss 2 auto_prior = Some (Ok st) /\
  t_diverging st = 0%nat /\ nth_error (t_feats st) 0 = Some s /\ s_agg s = Some a /\
  ~ follows_to true 3 a /\ ~ follows_to false 3 a.
Proof. exact (conj auto_choice auto_changes). Qed.
Print Assumptions C83_auto_refuted.

(** After a divergence the fitted contributions are limited to the neighbourhood of the
    raw estimates of their bins, which need not be monotone. *)
Theorem C83_divergence_refuted :
  choice_fct ChoiceGroupBy true false (fun _ : list unit => None) [tt] [N.lor IS_MONOTONIC INCREASING] =
    Some (Cut (Isotonic IncreasingOnly) Interpolating) /\
  exists st s a,
  fit_main (ex_cfg true true false 0 2) [div_feature] div_calc div_smooth ex_id ex_rate div_loss 2 div_prior = Some (Ok st) /\
  nth_error (t_feats st) 0 = Some s /\ s_agg s = Some a /\ nth 1 a 0 < nth 0 a 0.
Proof. exact (conj div_choice div_turns). Qed.
Print Assumptions C83_divergence_refuted.
