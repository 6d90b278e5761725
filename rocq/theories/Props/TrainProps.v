(** C17, C18, C20-C22: the training loop. In all statements the bin statistics
    [calc], the smoothers [smooth], the calibration [calib], the learning rates
    [rate] and the loss are arbitrary functions. *)
From Coq Require Import ZArith List Bool Reals.
From Verif.Model Require Import Num LexBins Train.
From Verif.Spec Require Import TrainSpec.
From Verif.Proofs Require Import TrainFacts TrainHistory TrainBounds TrainExamples TrainPropFacts.
Import ListNotations.
Local Open Scope R_scope.

(** ** C17 *)
(** With enough passes allowed the loop ends with the same result however many
    passes are allowed, and a returned fit took at most [iteration_bound]
    iterations. *)
Theorem C17_terminates : forall cfg features calc smooth calib rate loss prior,
  exists r, (forall fuel, (iteration_bound cfg <= fuel)%nat ->
               fit_main cfg features calc smooth calib rate loss fuel prior = Some r) /\
    forall st, r = Ok st -> (t_iter st <= iteration_bound cfg)%nat.
Proof. exact fit_terminates. Qed.
Print Assumptions C17_terminates.

(** Without hierarchical groups and if any iteration is executed at all, the only
    exception is the convergence error. Missing: hierarchical groups, see the
    refutation. *)
Theorem C17_only_convergence_error_partial : forall cfg features calc smooth calib rate loss prior fuel e,
  c_hier cfg = false -> some_iteration cfg ->
  fit_main cfg features calc smooth calib rate loss fuel prior = Some (Raise e) -> e = ConvergenceError.
Proof. exact error_kind. Qed.
Print Assumptions C17_only_convergence_error_partial.

(** With hierarchical groups and no divergence nothing is raised. *)
Theorem C17_hierarchical_without_divergence_partial : forall cfg features calc smooth calib rate loss prior fuel,
  c_hier cfg = true -> (forall p, ~ diverges (loss prior) (loss p)) ->
  (iteration_bound cfg <= fuel)%nat ->
  exists st, fit_main cfg features calc smooth calib rate loss fuel prior = Some (Ok st).
Proof. exact hierarchical_no_error. Qed.
Print Assumptions C17_hierarchical_without_divergence_partial.

(** With hierarchical groups a divergence in the first iterations raises a
    TypeError (remove_preds on a group that has never been fitted); a feature of
    the same data diverges. *)
Theorem C17_hierarchical_type_error_refuted :
  exists cfg features calc smooth calib rate loss prior fuel,
    (0 < c_maxiter cfg)%nat /\ c_hier cfg = true /\ (forall p, 0 < loss p) /\
    fit_main cfg features calc smooth calib rate loss fuel prior = Some (Raise TypeError).
Proof. exact hierarchical_type_error. Qed.
Print Assumptions C17_hierarchical_type_error_refuted.

(** maximal_iterations = 0 is accepted but always fails if there is a feature. *)
Theorem C17_zero_iterations_refuted :
  exists cfg features calc smooth calib rate loss prior fuel,
    c_maxiter cfg = 0%nat /\ c_hier cfg = false /\
    (forall p, ~ diverges (loss prior) (loss p)) /\
    fit_main cfg features calc smooth calib rate loss fuel prior = Some (Raise TypeError).
Proof. exact zero_iterations. Qed.
Print Assumptions C17_zero_iterations_refuted.

Example c17_returns : iteration_bound (ex_cfg true true false 0 2) = 6%nat /\
  fit_main (ex_cfg true true false 0 2) [ex_feature false false] (ex_calc (1/4) (1/8)) ex_smooth ex_id ex_rate flat_loss 6 ex_prior = Some (Ok g2) /\
  some_iteration (ex_cfg true true false 0 2).
Proof. exact ex_c17. Qed.
Example c17_raises :
  fit_main (ex_cfg true false false 0 9) [ex_feature false false] small_calc ex_smooth ex_id ex_rate bad_loss 13 ex_prior = Some (Raise ConvergenceError).
Proof. exact b_run. Qed.

(** ** C18 *)
Theorem C18_stop_reason : forall cfg features calc smooth calib rate loss prior fuel st,
  fit_main cfg features calc smooth calib rate loss fuel prior = Some (Ok st) ->
  ((c_maxiter cfg <= t_iter st)%nat \/ t_delta st <= c_minfactor cfg \/ Rabs (t_losschange st) <= c_minloss cfg) /\
  (t_iter st = 0%nat \/ ~ diverges (loss prior) (t_loss st)) /\
  (c_hier cfg = true -> (c_thier cfg < t_iter st)%nat).
Proof. exact stop_reason_main. Qed.
Print Assumptions C18_stop_reason.

Theorem C18_iterations_without_divergence : forall cfg features calc smooth calib rate loss prior fuel st,
  c_hier cfg = false -> (forall p, ~ diverges (loss prior) (loss p)) ->
  fit_main cfg features calc smooth calib rate loss fuel prior = Some (Ok st) ->
  (t_iter st <= c_maxiter cfg)%nat.
Proof. exact iterations_without_divergence. Qed.
Print Assumptions C18_iterations_without_divergence.

(** What the stop criteria are measured on: the relative change of the last two
    losses and the mean absolute change of the factors in the last iteration. *)
Theorem C18_criteria_values : forall cfg features calc smooth calib rate loss prior st st',
  reached cfg features calc smooth calib rate loss prior st -> continues cfg st = true ->
  iteration cfg features calc smooth calib rate loss (loss prior) st = Ok st' ->
  t_iter st' = S (t_iter st) /\
  (t_loss st <> 0 -> t_losschange st' = (t_loss st - t_loss st') / t_loss st) /\
  (t_isdiv st' = false -> t_loss st' = loss (t_preds st') /\
     t_delta st' = mean (map (fun s => mean (map Rabs (vsub (s_factors s) (s_old s)))) (t_feats st'))).
Proof. exact criteria_values. Qed.
Print Assumptions C18_criteria_values.

Example c18_example : exists st,
  fit_main (ex_cfg true true false 0 2) [ex_feature false false] (ex_calc (1/4) (1/8)) ex_smooth ex_id ex_rate flat_loss 6 ex_prior = Some (Ok st) /\ t_iter st = 2%nat.
Proof. exists g2. split; [exact g_run|reflexivity]. Qed.

(** ** C20 *)
(** All learned factors in original space stay within the limits as long as no
    iteration diverged. Missing: after a divergence, see the refutation. *)
Theorem C20_factors_within_limits_partial : forall cfg features calc smooth calib rate loss prior N,
  well_shaped N features prior -> one_per_bin features calc calib ->
  forall st, reached cfg features calc smooth calib rate loss prior st ->
  c_aggregate cfg = true -> c_log cfg = true -> t_diverging st = 0%nat ->
  forall m f k x, nth_error features m = Some f -> learned_factor st m k x -> factor_within f x.
Proof. exact factors_within. Qed.
Print Assumptions C20_factors_within_limits_partial.

(** Also after divergences: an iteration that does not diverge ends within the
    limits, unless it directly follows the first divergence. *)
Theorem C20_limits_restored_partial : forall cfg features calc smooth calib rate loss prior N,
  well_shaped N features prior -> one_per_bin features calc calib ->
  forall st st', reached cfg features calc smooth calib rate loss prior st -> continues cfg st = true ->
  iteration cfg features calc smooth calib rate loss (loss prior) st = Ok st' ->
  c_aggregate cfg = true -> c_log cfg = true -> t_isdiv st' = false ->
  (t_isdiv st = true -> t_diverging st <> 1%nat) ->
  forall m f k x, nth_error features m = Some f -> learned_factor st' m k x -> factor_within f x.
Proof. exact factors_within_again. Qed.
Print Assumptions C20_limits_restored_partial.

(** Per iteration a factor changes by at most a factor two. *)
Theorem C20_step_at_most_two_partial : forall cfg features calc smooth calib rate loss prior N,
  well_shaped N features prior -> one_per_bin features calc calib ->
  forall st st', reached cfg features calc smooth calib rate loss prior st -> continues cfg st = true ->
  iteration cfg features calc smooth calib rate loss (loss prior) st = Ok st' ->
  c_aggregate cfg = true -> c_log cfg = true -> t_diverging st' = 0%nat ->
  forall m k x x', learned_factor st m k x -> learned_factor st' m k x' -> x / 2 <= x' <= x * 2.
Proof. exact step_at_most_two. Qed.
Print Assumptions C20_step_at_most_two_partial.

(** The clipping around the unsmoothed factors after the first divergence ignores
    both limits. *)
Theorem C20_after_divergence_refuted :
  exists cfg features calc smooth calib rate loss prior fuel st m f k x,
    well_shaped 1 features prior /\ one_per_bin features calc calib /\
    c_aggregate cfg = true /\ c_log cfg = true /\
    fit_main cfg features calc smooth calib rate loss fuel prior = Some (Ok st) /\
    nth_error features m = Some f /\ learned_factor st m k x /\ ~ factor_within f x.
Proof. exact limits_refuted. Qed.
Print Assumptions C20_after_divergence_refuted.

Example c20_example : exists x, learned_factor g1 0 0 x /\ x <> 1 /\
  reached (ex_cfg true true false 0 2) [ex_feature false false] (ex_calc (1/4) (1/8)) ex_smooth ex_id ex_rate flat_loss ex_prior g1 /\
  well_shaped 1 [ex_feature false false] ex_prior /\ one_per_bin [ex_feature false false] (ex_calc (1/4) (1/8)) ex_id.
Proof. exact ex_c20. Qed.

(** ** C21 *)
(** Until more than the configured number of iterations is done, a group that is
    not hierarchical is unfitted, has neutral factors, and does not contribute to
    the prediction of any training row. *)
Theorem C21_others_untouched : forall cfg features calc smooth calib rate loss prior st m f s,
  reached cfg features calc smooth calib rate loss prior st -> c_hier cfg = true ->
  (t_iter st <= c_thier cfg)%nat -> nth_error features m = Some f -> f_hier f = false ->
  nth_error (t_feats st) m = Some s ->
  s_agg s = None /\ s_fitted s = false /\ s_factors s = zeros (S (f_finite f)).
Proof. exact hier_untouched. Qed.
Print Assumptions C21_others_untouched.

Theorem C21_all_trained_at_the_end : forall cfg features calc smooth calib rate loss prior fuel st m s,
  fit_main cfg features calc smooth calib rate loss fuel prior = Some (Ok st) ->
  nth_error (t_feats st) m = Some s -> s_agg s <> None.
Proof. exact all_trained_each. Qed.
Print Assumptions C21_all_trained_at_the_end.

Example c21_example :
  reached (ex_cfg true false true 1 1) [ex_feature true false; ex_feature false false] (ex_calc (1/4) (1/8)) ex_smooth ex_id ex_rate flat_loss ex_prior k1 /\
  continues (ex_cfg true false true 1 1) k1 = true /\ (t_iter k1 <= 1)%nat /\ f_hier (ex_feature false false) = false /\
  exists s, nth_error (t_feats k1) 0 = Some s /\ s_agg s = Some [1/4; 1/8].
Proof. exact ex_c21. Qed.

(** ** C22 *)
(** The convergence error is raised in an iteration exactly if the iteration
    diverges and four earlier ones did. *)
Theorem C22_fifth_divergence : forall cfg features calc smooth calib rate loss prior ls st sl p,
  history cfg features calc smooth calib rate loss prior ls st ->
  features_pass cfg calc smooth calib rate loss 0 features (t_feats st) (t_iter st) (t_preds st) (t_isdiv st) (t_diverging st) (loss prior) = Ok (sl, p) ->
  (iteration cfg features calc smooth calib rate loss (loss prior) st = Raise ConvergenceError <->
   diverging_count (loss prior) ls 4 /\ diverges (loss prior) (loss p)).
Proof. exact fifth_divergence_iff. Qed.
Print Assumptions C22_fifth_divergence.

(** A divergence is never returned: see C18; and a divergence that is not the
    fifth is rolled back, with aggregation. Missing: without aggregation, see the
    refutation. *)
Theorem C22_rollback_partial : forall cfg features calc smooth calib rate loss prior N,
  well_shaped N features prior -> one_per_bin features calc calib ->
  forall st st', reached cfg features calc smooth calib rate loss prior st ->
  c_aggregate cfg = true -> continues cfg st = true ->
  iteration cfg features calc smooth calib rate loss (loss prior) st = Ok st' -> t_isdiv st' = true ->
  (forall e j, (j < N)%nat -> nth j (column e (t_preds st')) 0 = nth j (column e (t_preds st)) 0) /\
  (forall m s s' b, nth_error (t_feats st) m = Some s -> nth_error (t_feats st') m = Some s' ->
     nth b (learned s') 0 = nth b (learned s) 0).
Proof. exact rollback_main. Qed.
Print Assumptions C22_rollback_partial.

(** Without aggregation the rollback restores the prediction without the group
    but keeps its factors for the next removal: the fitted model and the in-sample
    prediction disagree (the prediction of the only row is 3/2, its learned
    value 2). *)
Theorem C22_rollback_without_aggregation_refuted :
  exists cfg features calc smooth calib rate loss prior fuel st,
    well_shaped 1 features prior /\ one_per_bin features calc calib /\ c_aggregate cfg = false /\
    fit_main cfg features calc smooth calib rate loss fuel prior = Some (Ok st) /\
    nth 0 (p_factors (t_preds st)) 0 <> nth 0 (p_factors prior) 0 + contributions false features (map learned (t_feats st)) 0.
Proof. exact rollback_refuted. Qed.
Print Assumptions C22_rollback_without_aggregation_refuted.

Example c22_example :
  reached (ex_cfg true true false 0 2) [ex_feature false true] (ex_calc 12 5) ex_smooth ex_id ex_rate band_loss ex_prior w1 /\
  t_isdiv w1 = true /\ band_loss ex_prior = 1 /\
  iteration (ex_cfg true true false 0 2) [ex_feature false true] (ex_calc 12 5) ex_smooth ex_id ex_rate band_loss 1
    (init_state [ex_feature false true] band_loss ex_prior) = Ok w1.
Proof. exact ex_c22. Qed.
