(** C95: what is left of an estimator after a training that raised. *)
From Coq Require Import ZArith QArith List Bool Reals Lra.
From Verif.Model Require Import Num LexBins Train Predict FailedFit.
From Verif.Spec Require Import FailedFitSpec.
From Verif.Proofs Require Import TrainExamples FailedFitFacts.
Import ListNotations.
Local Open Scope R_scope.

(** C95, failures before any feature is trained: the checks of the data and the creation
    of the features leave the former model; a failure in the global scale leaves a model
    that refuses to predict. Missing: failures during the passes, see below. *)
Theorem C95_early_partial : forall cfg features calc smooth_at calib rate loss old start fuel p,
  let again := refit cfg features calc smooth_at calib rate loss old start fuel p in
  again (Some InChecks) = Some (old, false) /\ again (Some InFeatures) = Some (old, false) /\
  (features <> [] -> exists ob, again (Some InScale) = Some (ob, false) /\ refuses ob /\ fails_safely old ob).
Proof. exact early_failure. Qed.
Print Assumptions C95_early_partial.

(** C95, failures in the first pass over the features, at feature [i]: if another feature
    follows, every prediction raises; in any case every prediction raises for data with
    a row that has a value in feature [i]. Missing: data whose rows all lack the last
    feature. *)
Theorem C95_first_pass_partial : forall cfg features calc smooth_at calib rate loss old start fuel p i f,
  (0 < fuel)%nat -> continues cfg (init_state features loss p) = true ->
  nth_error features i = Some f -> skipped cfg f 0 = false ->
  exists ob, refit cfg features calc smooth_at calib rate loss old start fuel p (Some (InCalc 0 i)) = Some (ob, false) /\
    ((S i < length features)%nat -> refuses ob) /\
    (forall X x, In x X -> row_finite_semi_positive (x i) = true -> predict_object ob X = None).
Proof. exact first_failure. Qed.
Print Assumptions C95_first_pass_partial.
Example C95_first_pass_example : exists ob,
  refit gcfg [ex_feature false false; ex_feature false false] small_calc one_smooth ex_id ex_rate flat_loss former (flat_start 0) 3
    ex_prior (Some (InCalc 0 0)) = Some (ob, false) /\ refuses ob.
Proof. exact first_failure_example. Qed.

(** C95, for comparison: a training that succeeds leaves exactly the trained model, and
    [fit] fails exactly when the training raises. *)
Theorem C95_success_partial : forall cfg features calc smooth_at calib rate loss old start fuel p,
  let sm := smooth features smooth_at in
  let again := refit cfg features calc smooth_at calib rate loss old start fuel p None in
  (forall g, fit_main cfg features calc sm calib rate loss fuel p = Some (Ok g) ->
     exists ob, again = Some (ob, true) /\
       forall X, predict_object ob X = Some (predict_extended (map2 store features (t_feats g)) (start X) X)) /\
  (forall e, fit_main cfg features calc sm calib rate loss fuel p = Some (Raise e) -> exists ob, again = Some (ob, false)).
Proof. exact success_or_failure. Qed.
Print Assumptions C95_success_partial.

(** C95 fails: after the first pass every failure, for whatever reason, leaves an
    estimator that answers all predictions ... *)
Theorem C95_late_refuted : forall cfg features calc smooth_at calib rate loss, c_hier cfg = false ->
  forall old start fuel p flt ob ok, continues cfg (init_state features loss p) = true ->
  flt = None \/ (exists it i, flt = Some (InCalc (S it) i)) ->
  refit cfg features calc smooth_at calib rate loss old start fuel p flt = Some (ob, ok) -> answers ob.
Proof. exact late_failure. Qed.
Print Assumptions C95_late_refuted.

(** ... and these are not the predictions of the former model: here every pass diverges,
    [fit] reports that, and the predictions are those of the last rejected step. *)
Theorem C95_diverged_refuted : exists ob,
  refit bcfg gfeats small_calc one_smooth ex_id ex_rate bad_loss former (flat_start 0) 13 ex_prior None = Some (ob, false) /\
  fit_main bcfg gfeats small_calc (smooth gfeats one_smooth) ex_id ex_rate bad_loss 13 ex_prior = Some (Raise ConvergenceError) /\
  predict_object former one_row = Some {| p_factors := [0 + 1]; p_exponents := [0] |} /\
  predict_object ob one_row = Some {| p_factors := [0 + 1/8]; p_exponents := [0] |} /\
  ~ fails_safely former ob.
Proof. exact diverged_witness. Qed.
Print Assumptions C95_diverged_refuted.
