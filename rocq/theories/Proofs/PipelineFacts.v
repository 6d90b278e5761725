(** Pipeline factories (C44). *)
From Coq Require Import ZArith QArith List Bool.
From Verif.Model Require Import Pipelines.
From Verif.Spec Require Import PipelineSpec.
Import ListNotations.

(** What the base constructor stores for the bound parameters. *)
Definition has_hierarchy (e : estimator) : bool :=
  match constructor_signature e hierarchical_feature_groups with Some _ => true | None => false end.
Definition stored (e : estimator) (env : setting -> value) (s : setting) : value :=
  match s with
  | smoother_choice => if is_none (env smoother_choice) then VWeightedMean else env smoother_choice
  | observers => if is_none (env observers) then VEmptyList else env observers
  | learn_rate => if has_hierarchy e && negb (is_none (env hierarchical_feature_groups)) then VConstantOne
                  else if is_none (env learn_rate) then VHalfLinear else env learn_rate
  | _ => env s
  end.

Definition env_of (sig : signature) (kw : kwargs) : setting -> value :=
  fun s => match kw s with
           | Some v => v
           | None => match sig s with Some (Some d) => d | _ => VNone end
           end.
Definition fits (sig : signature) (kw : kwargs) : Prop :=
  forall s, match sig s, kw s with None, Some _ => False | Some None, None => False | _, _ => True end.

Lemma all_settings_all s : In s all_settings.
Proof. destruct s; cbn; tauto. Qed.

Lemma bind_fits sig kw : fits sig kw -> bind sig kw = Ok (env_of sig kw).
Proof.
  intro H. unfold bind.
  replace (forallb _ all_settings) with true; [reflexivity|]. symmetry. apply forallb_forall. intros s _.
  specialize (H s). destruct (sig s) as [[d|]|], (kw s); auto; contradiction.
Qed.

Lemma bind_Ok sig kw env : bind sig kw = Ok env -> fits sig kw /\ env = env_of sig kw.
Proof.
  unfold bind. destruct (forallb _ all_settings) eqn:E; [|discriminate]. intro H. injection H as <-.
  split; [|reflexivity]. intro s. rewrite forallb_forall in E. specialize (E s (all_settings_all s)).
  destruct (sig s) as [[d|]|], (kw s); auto; discriminate.
Qed.

Lemma construct_stored e kw env : bind (constructor_signature e) kw = Ok env ->
  (e = CBExponential -> is_none (env standard_feature_groups) = false) -> e <> OtherClass ->
  exists att, construct e kw = Ok att /\ forall s, relevant e s -> att s = Some (stored e env s).
Proof.
  intros H X NO. destruct e; cbn [constructor_signature construct] in *; try (exfalso; apply NO; reflexivity);
  unfold base_init, nbinom_init, exponential_init, nbinomc_init, gbs_init, quantile_init, generic_init; rewrite H;
  try (rewrite (X eq_refl)); clear H X NO; (eexists; split; [reflexivity|]);
  (intros s R; destruct s; first [reflexivity|exfalso; apply R; reflexivity]).
Qed.

Lemma construct_Ok e kw att : construct e kw = Ok att ->
  exists env, bind (constructor_signature e) kw = Ok env /\ e <> OtherClass /\
    (e = CBExponential -> is_none (env standard_feature_groups) = false) /\
    forall s, relevant e s -> att s = Some (stored e env s).
Proof.
  intro H.
  assert (G : exists env, bind (constructor_signature e) kw = Ok env /\ e <> OtherClass /\
    (e = CBExponential -> is_none (env standard_feature_groups) = false)).
  { destruct e; cbn [constructor_signature construct] in *; try discriminate H;
    unfold base_init, nbinom_init, exponential_init, nbinomc_init, gbs_init, quantile_init, generic_init in H;
    match type of H with context [bind ?sig kw] => destruct (bind sig kw) as [env| | |] end; try discriminate H;
    (exists env; split; [reflexivity|split; [discriminate|]]); intro E; try discriminate E.
    destruct (is_none (env standard_feature_groups)); [discriminate H|reflexivity]. }
  destruct G as (env & B & NO & X). exists env. split; [exact B|]. split; [exact NO|]. split; [exact X|].
  destruct (construct_stored e kw env B X NO) as (att' & E & G). rewrite E in H. injection H as <-. exact G.
Qed.

(** The environment of the factory. *)
Definition pipeline_env (kw : kwargs) : setting -> value :=
  fun s => match kw s with Some v => v | None => pipeline_default s end.

Lemma pipeline_Ok e kw b att : pipeline_CB e kw = Ok (b, att) ->
  exists names, forwarded e = Some names /\ b = make_binner (pipeline_env kw) /\
    construct e (pass names (pipeline_env kw)) = Ok att.
Proof.
  unfold pipeline_CB. fold (pipeline_env kw). destruct (forwarded e) as [names|]; [|discriminate].
  intro H. exists names. split; [reflexivity|].
  destruct (construct e (pass names (pipeline_env kw))) as [att'| | |]; try discriminate.
  injection H as <- <-. split; reflexivity.
Qed.

Lemma forwarded_relevant e names s : forwarded e = Some names -> relevant e s -> ~ dropped e s ->
  existsb (setting_beq s) names = true.
Proof.
  intros F R D. destruct e; try discriminate F; injection F as <-; destruct s; first
    [reflexivity | exfalso; apply R; reflexivity | exfalso; apply D; split; [reflexivity|auto; fail]].
Qed.

Lemma forwarded_fits e names env : forwarded e = Some names -> fits (constructor_signature e) (pass names env).
Proof. intros F s. destruct e; try discriminate F; injection F as <-; destruct s; exact I. Qed.

Lemma arrives e names kw s : forwarded e = Some names -> relevant e s -> ~ dropped e s ->
  env_of (constructor_signature e) (pass names (pipeline_env kw)) s = pipeline_env kw s.
Proof. intros F R D. unfold env_of, pass. rewrite (forwarded_relevant e names s F R D). reflexivity. Qed.

Lemma hierarchy_relevant e : has_hierarchy e = true -> relevant e hierarchical_feature_groups.
Proof. unfold has_hierarchy, relevant. destruct (constructor_signature e _); congruence. Qed.

Lemma hierarchy_not_dropped e : ~ dropped e hierarchical_feature_groups.
Proof. intros [_ [E|E]]; discriminate. Qed.

Lemma pipeline_stored e kw b att s : pipeline_CB e kw = Ok (b, att) -> relevant e s -> ~ dropped e s ->
  att s = Some (stored e (pipeline_env kw) s).
Proof.
  intros H R D. destruct (pipeline_Ok _ _ _ _ H) as (names & F & _ & C).
  destruct (construct_Ok _ _ _ C) as (env & B & _ & _ & A). apply bind_Ok in B. destruct B as [_ ->].
  rewrite (A s R). f_equal.
  pose proof (arrives e names kw) as AR.
  destruct s; unfold stored; rewrite ?(AR _ F R D); try reflexivity.
  destruct (has_hierarchy e) eqn:E; cbn [andb]; [|reflexivity].
  rewrite (AR _ F (hierarchy_relevant e E) (hierarchy_not_dropped e)). reflexivity.
Qed.

Lemma forward e kw b att s v :
  pipeline_CB e kw = Ok (b, att) -> kw s = Some v -> relevant e s -> v <> VNone ->
  ~ dropped e s -> (s = learn_rate -> no_hierarchy kw) -> att s = Some v.
Proof.
  intros H K R N D L. rewrite (pipeline_stored e kw b att s H R D). f_equal.
  assert (E : pipeline_env kw s = v) by (unfold pipeline_env; rewrite K; reflexivity).
  assert (Nv : is_none v = false) by (destruct v; [exfalso; apply N|..]; reflexivity).
  destruct s; cbn [stored]; rewrite ?E, ?Nv; try reflexivity.
  assert (Hh : is_none (pipeline_env kw hierarchical_feature_groups) = true).
  { unfold pipeline_env. destruct (L eq_refl) as [-> | ->]; reflexivity. }
  rewrite Hh, andb_false_r. reflexivity.
Qed.

(** ** Comparison with direct construction *)
Lemma direct_stored e kw att s : construct e (relevant_settings e kw) = Ok att -> relevant e s ->
  att s = Some (stored e (env_of (constructor_signature e) (relevant_settings e kw)) s).
Proof.
  intros H R. destruct (construct_Ok _ _ _ H) as (env & B & _ & _ & A). apply bind_Ok in B. destruct B as [_ ->]. auto.
Qed.

Definition direct_env (e : estimator) (kw : kwargs) := env_of (constructor_signature e) (relevant_settings e kw).

Lemma given_same e kw s v : relevant e s -> kw s = Some v -> direct_env e kw s = v /\ pipeline_env kw s = v.
Proof.
  intros R K. unfold direct_env, env_of, relevant_settings, pipeline_env. rewrite K.
  unfold relevant in R. destruct (constructor_signature e s); [auto|congruence].
Qed.

(** Defaults, for parameters that have one. *)
Definition has_default (e : estimator) (s : setting) : Prop := constructor_signature e s <> Some None.

Lemma default_same e kw s : relevant e s -> has_default e s -> ~ default_changed e s -> kw s = None ->
  direct_env e kw s = pipeline_env kw s.
Proof.
  intros R HD DC K. unfold direct_env, env_of, relevant_settings, pipeline_env. rewrite K.
  destruct e, s; first [reflexivity | exfalso; apply R; reflexivity | exfalso; apply DC; exact I | exfalso; apply HD; reflexivity].
Qed.

Lemma direct_required e kw att s : construct e (relevant_settings e kw) = Ok att -> kw s = None -> relevant e s -> has_default e s.
Proof.
  intros H K R. destruct (construct_Ok _ _ _ H) as (env & B & _). apply bind_Ok in B. destruct B as [F _].
  specialize (F s). unfold has_default, relevant_settings in *.
  destruct (constructor_signature e s) as [[d|]|] eqn:E; try congruence. rewrite K in F. contradiction.
Qed.

Lemma same_as_direct e kw b att att' s :
  pipeline_CB e kw = Ok (b, att) -> construct e (relevant_settings e kw) = Ok att' ->
  relevant e s -> ~ dropped e s -> (kw s = None -> ~ default_changed e s) -> att s = att' s.
Proof.
  intros H H' R D DC. rewrite (pipeline_stored e kw b att s H R D), (direct_stored e kw att' s H' R).
  fold (direct_env e kw).
  assert (G : forall t, relevant e t -> (kw t = None -> ~ default_changed e t) -> direct_env e kw t = pipeline_env kw t).
  { intros t Rt Dt. destruct (kw t) as [v|] eqn:K.
    - destruct (given_same e kw t v Rt K). congruence.
    - apply default_same; auto. eapply direct_required; eauto. }
  f_equal. destruct s; cbn [stored]; rewrite ?(G _ R DC); try reflexivity.
  destruct (has_hierarchy e) eqn:E; cbn [andb]; [|reflexivity].
  rewrite (G hierarchical_feature_groups); [reflexivity|apply hierarchy_relevant; auto|].
  intros _ C. destruct e; exact C.
Qed.

Lemma works_like_direct e kw att' : construct e (relevant_settings e kw) = Ok att' ->
  exists b att, pipeline_CB e kw = Ok (b, att).
Proof.
  intro H. destruct (construct_Ok _ _ _ H) as (env & B & NO & X & _).
  destruct (forwarded e) as [names|] eqn:F; [|destruct e; try discriminate F; exfalso; apply NO; reflexivity].
  unfold pipeline_CB. fold (pipeline_env kw). rewrite F.
  pose proof (bind_fits _ _ (forwarded_fits e names (pipeline_env kw) F)) as BF.
  destruct (construct_stored e _ _ BF) as (att & E & _); auto.
  - intros ->. injection F as <-. apply bind_Ok in B. destruct B as [_ ->]. specialize (X eq_refl).
    cbn in X. cbn. unfold pipeline_env. cbn [pipeline_default]. exact X.
  - rewrite E. eauto.
Qed.

Lemma defaults_changed e kw b att att' s :
  pipeline_CB e kw = Ok (b, att) -> construct e (relevant_settings e kw) = Ok att' ->
  default_changed e s -> kw s = None -> att s <> att' s.
Proof.
  intros H H' DC K.
  assert (R : relevant e s) by (destruct e, s; first [contradiction|discriminate]).
  assert (D : ~ dropped e s) by (intros [-> [-> | ->]]; exact DC).
  rewrite (pipeline_stored e kw b att s H R D), (direct_stored e kw att' s H' R).
  fold (direct_env e kw).
  assert (EP : pipeline_env kw s = pipeline_default s) by (unfold pipeline_env; rewrite K; reflexivity).
  assert (ED : direct_env e kw s = match constructor_signature e s with Some (Some d) => d | _ => VNone end).
  { unfold direct_env, env_of, relevant_settings. rewrite K. destruct (constructor_signature e s) as [[d|]|]; reflexivity. }
  destruct e, s; try contradiction; cbn [stored]; rewrite EP, ED; discriminate.
Qed.

Lemma dropped_setting kw b att s :
  pipeline_CB CBExponential kw = Ok (b, att) -> dropped CBExponential s ->
  att s = Some (VNum (if setting_beq s a_param then 1 else 0)).
Proof.
  intros H D. destruct (pipeline_Ok _ _ _ _ H) as (names & F & _ & C).
  destruct (construct_Ok _ _ _ C) as (env & B & _ & _ & A). apply bind_Ok in B. destruct B as [_ ->].
  injection F as <-. destruct D as [_ [-> | ->]]; rewrite A by discriminate; reflexivity.
Qed.

Lemma binner_settings e kw b att : pipeline_CB e kw = Ok (b, att) ->
  n_bins b = match kw number_of_bins with Some v => v | None => n_bins default_binner end /\
  properties b = match kw feature_properties with Some v => v | None => properties default_binner end /\
  in_place b = match kw inplace with Some v => v | None => in_place default_binner end.
Proof.
  intro H. destruct (pipeline_Ok _ _ _ _ H) as (names & _ & -> & _). repeat split.
Qed.

(** ** Witnesses *)
Definition kw_of (l : list (setting * value)) : kwargs :=
  fun s => match find (fun p => setting_beq s (fst p)) l with Some (_, v) => Some v | None => None end.

Definition price_settings : list (setting * value) :=
  [(external_colname, VObj 1); (standard_feature_groups, VObj 2); (external_feature_groups, VObj 3)].

Lemma ex_dropped : exists kw b att v,
  pipeline_CB CBExponential kw = Ok (b, att) /\ relevant CBExponential a_param /\
  kw a_param = Some v /\ v <> VNone /\ att a_param <> Some v.
Proof.
  exists (kw_of ((a_param, VNum (3#2)) :: price_settings)). do 2 eexists. exists (VNum (3#2)).
  split; [reflexivity|]. repeat split; try discriminate.
Qed.

Lemma ex_default : exists e kw b att att' s,
  pipeline_CB e kw = Ok (b, att) /\ construct e (relevant_settings e kw) = Ok att' /\
  relevant e s /\ kw s = None /\ att s <> att' s.
Proof.
  exists CBNBinomC, (kw_of [(mean_prediction_column, VObj 1)]). do 3 eexists. exists learn_rate.
  split; [reflexivity|]. split; [reflexivity|]. repeat split; discriminate.
Qed.

Lemma ex_required : exists kw b att,
  construct CBNBinomC (relevant_settings CBNBinomC kw) = TypeError /\
  pipeline_CB CBNBinomC kw = Ok (b, att) /\ att mean_prediction_column = Some VNone.
Proof. exists (kw_of []). do 2 eexists. split; [reflexivity|]. split; reflexivity. Qed.

Lemma ex_forward : exists b att,
  pipeline_CB CBExponential (kw_of ((learn_rate, VObj 7) :: (maximal_iterations, VNum 3) :: price_settings)) = Ok (b, att) /\
  att learn_rate = Some (VObj 7) /\ att maximal_iterations = Some (VNum 3) /\
  att observers = Some VEmptyList /\ att feature_groups = Some (VCombined (VObj 2) (VObj 3)).
Proof. do 2 eexists. split; [reflexivity|]. repeat split. Qed.
