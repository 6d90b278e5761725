(** C88 (clones), C89 (settings changed after construction), C90 (smoothers of the
    features). *)
From Coq Require Import ZArith List Bool.
From Verif.Model Require Import Pipelines Cloning.
From Verif.Spec Require Import PipelineSpec CloneSpec.
From Verif.Proofs Require Import CloneFacts.
Import ListNotations.

(** ** C88 *)
(** A copy has the settings of the original and has learned nothing, and the only
    objects it does not own are those its classes declare as shared. *)
Theorem C88_clone_objects : forall shared safe v n v' n',
  clone shared safe v n = Some (v', n') ->
  (n <= n')%nat /\ same_settings shared v v' /\ forall i, part_of i v' -> (n <= i < n')%nat \/ kept_part shared i v.
Proof. exact clone_theorem. Qed.
Print Assumptions C88_clone_objects.
(** If nothing is declared as shared, original and copy have no object in common. *)
Theorem C88_clone_disjoint : forall shared safe v n v' n', (forall c k, shared c k = false) -> allocated n v ->
  clone shared safe v n = Some (v', n') -> disjoint v v'.
Proof. exact clone_disjoint. Qed.
Print Assumptions C88_clone_disjoint.
(** An estimator can always be cloned; another object on its own cannot. *)
Theorem C88_clone_works : forall shared i c p s n,
  exists p' n', clone shared true (PEst i c p s) n = Some (PEst n c p' [], n').
Proof. exact clone_estimator_works. Qed.
Print Assumptions C88_clone_works.
Theorem C88_clone_refuses : forall shared i l n a,
  clone shared true (POpaque i l) n = None /\ clone shared true (PAtom a) n = None.
Proof. exact clone_refuses. Qed.
Print Assumptions C88_clone_refuses.
(** A clone of an estimator as it is constructed has exactly the same settings. *)
Theorem C88_settings : forall e kw att, construct e kw = Ok att ->
  exists att', clone_estimator e att = Ok att' /\ forall s, att' s = att s.
Proof. exact clone_same. Qed.
Print Assumptions C88_settings.
(** A clone of a fitted estimator has the settings of the fitted one; with the next
    theorem, this is all that holds of the settings given by the user: feature groups
    left to the data are not found anew by the clone. *)
Theorem C88_fitted_partial : forall e kw att groups, construct e kw = Ok att -> groups <> VNone ->
  exists att', clone_estimator e (after_fit groups att) = Ok att' /\ forall s, att' s = after_fit groups att s.
Proof. exact clone_fitted. Qed.
Print Assumptions C88_fitted_partial.
Theorem C88_fitted_refuted : exists e kw att groups att',
  construct e kw = Ok att /\ clone_estimator e (after_fit groups att) = Ok att' /\
  att' feature_groups <> att feature_groups.
Proof. exact fitted_clone_keeps_groups. Qed.
Print Assumptions C88_fitted_refuted.

Example C88_example : allocated 4 used_smoother /\
  clone nothing_shared true used_smoother 4 = Some (PEst 4 1 [PEst 5 2 [PAtom 5] []; PSeq 6 [PAtom 1]] [], 7%nat) /\
  clone (fun c k => Nat.eqb c 1 && Nat.eqb k 1) true used_smoother 4
    = Some (PEst 4 1 [PEst 5 2 [PAtom 5] []; PSeq 3 [PAtom 1]] [], 6%nat).
Proof. split; [exact used_allocated|split; reflexivity]. Qed.

(** ** C89 *)
(** Missing: the groups of hierarchical features, the feature groups of the price model,
    None for settings with a default object, and the learning rate if there are
    hierarchical features. *)
Theorem C89_set_later_partial : forall e kw o s v o' o'',
  build e kw = Ok o -> set_param e s v o = Ok o' -> build e (with_setting kw s v) = Ok o'' ->
  ~ converted s -> (has_default_object s -> v <> VNone) ->
  (s = learn_rate -> e <> OtherClass -> ob_att o hierarchical_feature_groups = Some VNone) ->
  interchangeable o' o''.
Proof. exact set_later. Qed.
Print Assumptions C89_set_later_partial.
Theorem C89_hierarchical_refuted : exists e kw v o o' o'',
  build e kw = Ok o /\ set_param e hierarchical_feature_groups v o = Ok o' /\
  build e (with_setting kw hierarchical_feature_groups v) = Ok o'' /\
  hierarchical_names o' <> hierarchical_names o'' /\ reads o' learn_rate <> reads o'' learn_rate.
Proof. exact hierarchical_later. Qed.
Print Assumptions C89_hierarchical_refuted.
Theorem C89_price_groups_refuted : exists kw v o o' o'',
  build CBExponential kw = Ok o /\ set_param CBExponential standard_feature_groups v o = Ok o' /\
  build CBExponential (with_setting kw standard_feature_groups v) = Ok o'' /\
  (forall s, reads o' s = reads o s) /\ reads o' feature_groups <> reads o'' feature_groups.
Proof. exact price_groups_later. Qed.
Print Assumptions C89_price_groups_refuted.
Theorem C89_price_external_groups_refuted : exists kw v o o' o'',
  build CBExponential kw = Ok o /\ set_param CBExponential external_feature_groups v o = Ok o' /\
  build CBExponential (with_setting kw external_feature_groups v) = Ok o'' /\
  (forall s, reads o' s = reads o s) /\ reads o' feature_groups <> reads o'' feature_groups.
Proof. exact price_external_groups_later. Qed.
Print Assumptions C89_price_external_groups_refuted.
Theorem C89_learn_rate_refuted : exists e kw v o o' o'',
  build e kw = Ok o /\ set_param e learn_rate v o = Ok o' /\ build e (with_setting kw learn_rate v) = Ok o'' /\
  ob_att o' learn_rate = Some v /\ ob_att o'' learn_rate <> Some v.
Proof. exact rate_with_hierarchy. Qed.
Print Assumptions C89_learn_rate_refuted.
(** The documented default is a learning rate of 1 (base.py:233). *)
Theorem C89_default_learn_rate_refuted :
  exists o, build CBPoissonRegressor plain = Ok o /\ ob_att o learn_rate = Some VHalfLinear.
Proof. exact default_rate_not_one. Qed.
Print Assumptions C89_default_learn_rate_refuted.

Example C89_example : exists o o' o'',
  build CBNBinomRegressor (given [(a_param, VObj 1)]) = Ok o /\
  set_param CBNBinomRegressor maximal_iterations (VObj 2) o = Ok o' /\
  build CBNBinomRegressor (with_setting (given [(a_param, VObj 1)]) maximal_iterations (VObj 2)) = Ok o'' /\
  ~ converted maximal_iterations /\ ~ has_default_object maximal_iterations.
Proof.
  eexists _, _, _. split; [reflexivity|]. split; [reflexivity|]. split; [reflexivity|].
  split; intros [H|[H|H]]; discriminate H.
Qed.

(** ** C90 *)
(** Each feature gets a smoother of its own, with the chosen settings and nothing
    learned, even if the same smoother is chosen for several features: whatever one of
    them learns, the others and the smoothers of the user are not changed. *)
Theorem C90_own_smoothers : forall shared chosen n l n', (forall c k, shared c k = false) ->
  (forall v, In v chosen -> allocated n v) ->
  feature_smoothers shared chosen n = Some (l, n') ->
  Forall2 (same_settings shared) chosen l /\
  forall j v i st, nth_error l j = Some v -> part_of i v ->
    (forall k w, nth_error l k = Some w -> j <> k -> learn i st w = w) /\
    (forall w, In w chosen -> learn i st w = w).
Proof. exact own_smoother. Qed.
Print Assumptions C90_own_smoothers.

Example C90_example : (forall v, In v two_smoothers -> allocated 4 v) /\
  feature_smoothers nothing_shared two_smoothers 4 = Some (their_copies, 10%nat) /\
  nth_error their_copies 0 = Some (PEst 4 1 [PEst 5 2 [PAtom 5] []; PSeq 6 [PAtom 1]] []) /\
  map (learn 5 [PAtom 3]) their_copies =
    [PEst 4 1 [PEst 5 2 [PAtom 5] [PAtom 3]; PSeq 6 [PAtom 1]] []; PEst 7 1 [PEst 8 2 [PAtom 5] []; PSeq 9 [PAtom 1]] []].
Proof.
  split; [intros v [<-|[<-|[]]]; exact used_allocated|]. split; [exact two_copies|]. split; reflexivity.
Qed.
