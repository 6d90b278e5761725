(** C44: the pipeline factories and the settings of their estimators. *)
From Coq Require Import ZArith QArith List Bool.
From Verif.Model Require Import Pipelines.
From Verif.Spec Require Import PipelineSpec.
From Verif.Proofs Require Import PipelineFacts.
Import ListNotations.

(** A given setting other than None is stored unchanged in the estimator.
    Missing: [a] and [c] of the exponential price model ([dropped]). Hierarchical
    feature groups make the base constructor replace the learning rate. *)
Theorem C44_forward_partial : forall e kw b att s v,
  pipeline_CB e kw = Ok (b, att) -> kw s = Some v -> relevant e s -> v <> VNone ->
  ~ dropped e s -> (s = learn_rate -> no_hierarchy kw) -> att s = Some v.
Proof. exact forward. Qed.
Print Assumptions C44_forward_partial.

(** The estimator of the pipeline stores what the directly constructed one
    stores, for settings that are given or have the same default in both.
    Missing: the dropped settings and the changed defaults. *)
Theorem C44_same_as_direct_partial : forall e kw b att att' s,
  pipeline_CB e kw = Ok (b, att) -> construct e (relevant_settings e kw) = Ok att' ->
  relevant e s -> ~ dropped e s -> (kw s = None -> ~ default_changed e s) -> att s = att' s.
Proof. exact same_as_direct. Qed.
Print Assumptions C44_same_as_direct_partial.

(** What can be constructed directly can be constructed by the factory. *)
Theorem C44_works_like_direct : forall e kw att', construct e (relevant_settings e kw) = Ok att' ->
  exists b att, pipeline_CB e kw = Ok (b, att).
Proof. exact works_like_direct. Qed.
Print Assumptions C44_works_like_direct.

(** The binning step gets the given settings and else has its own defaults. *)
Theorem C44_binner : forall e kw b att, pipeline_CB e kw = Ok (b, att) ->
  n_bins b = match kw number_of_bins with Some v => v | None => n_bins default_binner end /\
  properties b = match kw feature_properties with Some v => v | None => properties default_binner end /\
  in_place b = match kw inplace with Some v => v | None => in_place default_binner end.
Proof. exact binner_settings. Qed.
Print Assumptions C44_binner.

(** The defaults listed as changed are indeed different for every call. *)
Theorem C44_defaults_changed_always_refuted : forall e kw b att att' s,
  pipeline_CB e kw = Ok (b, att) -> construct e (relevant_settings e kw) = Ok att' ->
  default_changed e s -> kw s = None -> att s <> att' s.
Proof. exact defaults_changed. Qed.
Print Assumptions C44_defaults_changed_always_refuted.

(** The parameters of the exponential price model have their default values
    whatever is given. *)
Theorem C44_dropped_always_refuted : forall kw b att s,
  pipeline_CB CBExponential kw = Ok (b, att) -> dropped CBExponential s ->
  att s = Some (VNum (if setting_beq s a_param then 1 else 0)).
Proof. exact dropped_setting. Qed.
Print Assumptions C44_dropped_always_refuted.

(** The code violates C44: a given setting is dropped, ... *)
Theorem C44_forward_refuted : exists kw b att v,
  pipeline_CB CBExponential kw = Ok (b, att) /\ relevant CBExponential a_param /\
  kw a_param = Some v /\ v <> VNone /\ att a_param <> Some v.
Proof. exact ex_dropped. Qed.
Print Assumptions C44_forward_refuted.

(** ... a default of the estimator is not left in place, ... *)
Theorem C44_defaults_refuted : exists e kw b att att' s,
  pipeline_CB e kw = Ok (b, att) /\ construct e (relevant_settings e kw) = Ok att' /\
  relevant e s /\ kw s = None /\ att s <> att' s.
Proof. exact ex_default. Qed.
Print Assumptions C44_defaults_refuted.

(** ... and a required setting that is not given becomes None. *)
Theorem C44_required_refuted : exists kw b att,
  construct CBNBinomC (relevant_settings CBNBinomC kw) = TypeError /\
  pipeline_CB CBNBinomC kw = Ok (b, att) /\ att mean_prediction_column = Some VNone.
Proof. exact ex_required. Qed.
Print Assumptions C44_required_refuted.

Example c44_forward : exists b att,
  pipeline_CB CBExponential (kw_of ((learn_rate, VObj 7) :: (maximal_iterations, VNum 3) :: price_settings)) = Ok (b, att) /\
  att learn_rate = Some (VObj 7) /\ att maximal_iterations = Some (VNum 3) /\
  att observers = Some VEmptyList /\ att feature_groups = Some (VCombined (VObj 2) (VObj 3)).
Proof. exact ex_forward. Qed.
