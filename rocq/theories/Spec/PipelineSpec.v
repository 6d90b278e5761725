(** Settings of estimators and of pipelines. *)
From Coq Require Import ZArith QArith List Bool.
From Verif.Model Require Import Pipelines.
Import ListNotations.

(** The setting is a parameter of the estimator's constructor. *)
Definition relevant (e : estimator) (s : setting) : Prop := constructor_signature e s <> None.

(** Of the given settings the ones the estimator's constructor has: what a user
    passes who constructs the estimator directly. *)
Definition relevant_settings (e : estimator) (kw : kwargs) : kwargs :=
  fun s => match constructor_signature e s with Some _ => kw s | None => None end.

(** No hierarchical feature groups are given (they force the learning rate 1). *)
Definition no_hierarchy (kw : kwargs) : Prop :=
  kw hierarchical_feature_groups = None \/ kw hierarchical_feature_groups = Some VNone.

(** Settings the factory drops: the parameters of the negative binomial loss of
    the exponential price model. *)
Definition dropped (e : estimator) (s : setting) : Prop :=
  e = CBExponential /\ (s = a_param \/ s = c_param).

(** Settings whose default in the factory is not the default of the estimator. *)
Definition default_changed (e : estimator) (s : setting) : Prop :=
  match e, s with
  | CBNBinomRegressor, _ => False
  | CBExponential, maximal_iterations => True
  | CBExponential, _ => False
  | CBNBinomC, learn_rate => True
  | OtherClass, _ => False
  | _, minimal_loss_change => True
  | _, minimal_factor_change => True
  | _, _ => False
  end.
