(** C36, C45, C57: smoothers of feature groups, default groups, lookup of features. *)
From Coq Require Import NArith List Bool String Arith.
From Verif.Model Require Import Flags SmootherChoice.
From Verif.Spec Require Import FlagSpec SmootherSpec.
From Verif.Proofs Require Import SmootherFacts.
Import ListNotations.
Local Open Scope N_scope.

(** ** C36 *)
(** [use_type], [normalized] and [explicit] are the settings of the smoother choice. *)
Theorem C36_one_dimensional : forall (K : Type) (use_type normalized : bool) (explicit : list K -> option smoother) c p,
  explicit [c] = None -> usable p ->
  exists k s, feature_kind p k /\ smoother_of_kind normalized p k s /\
    choice_fct ChoiceWeightedMean use_type normalized explicit [c] [p] = Some (wrapped use_type normalized s (type_of_kind k)) /\
    choice_fct ChoiceGroupBy use_type normalized explicit [c] [p] = Some (wrapped use_type normalized s (type_of_kind k)).
Proof. exact @choice_one_dim. Qed.
Print Assumptions C36_one_dimensional.

Theorem C36_determined : forall normalized p k k' s s',
  feature_kind p k -> smoother_of_kind normalized p k s -> feature_kind p k' -> smoother_of_kind normalized p k' s' -> s = s'.
Proof. exact kind_and_smoother_unique. Qed.
Print Assumptions C36_determined.

(** A property without any kind that contains an unnamed flag raises an exception. *)
Theorem C36_unusable : forall (K : Type) (use_type normalized : bool) (explicit : list K -> option smoother) c p,
  explicit [c] = None ->
  (choice_fct ChoiceWeightedMean use_type normalized explicit [c] [p] = None <-> ~ usable p) /\
  (choice_fct ChoiceGroupBy use_type normalized explicit [c] [p] = None <-> ~ usable p).
Proof. exact @choice_one_dim_none. Qed.
Print Assumptions C36_unusable.
(** The flag INCREASING alone. *)
Theorem C36_any_flags_refuted : exists p,
  p = 2048 /\ choice_fct ChoiceWeightedMean true true (fun _ : list nat => None) [7%nat] [p] = None.
Proof. exact unusable_exists. Qed.
Print Assumptions C36_any_flags_refuted.

Theorem C36_explicit : forall (K : Type) (use_type normalized : bool) (explicit : list K -> option smoother) group props s,
  List.length group = List.length props -> props <> [] -> explicit group = Some s ->
  (exists ks t, Forall2 feature_kind props ks /\ group_type ks t /\
     choice_fct ChoiceWeightedMean use_type normalized explicit group props = Some (wrapped use_type normalized s t)) /\
  (exists k, feature_kind (last props 0) k /\
     choice_fct ChoiceGroupBy use_type normalized explicit group props =
       Some (match s with GroupByCB _ _ => s | _ => wrapped use_type normalized s (type_of_kind k) end)).
Proof. exact @choice_explicit. Qed.
Print Assumptions C36_explicit.

(** The class without smoothing accepts explicit smoothers, too, but ignores them. *)
Theorem C36_explicit_refuted : exists (explicit : list nat -> option smoother) group p s,
  explicit group = Some s /\ forall u n t, choice_fct ChoiceNone u n explicit group [p] <> Some (wrapped u n s t).
Proof. exact choice_explicit_ignored. Qed.
Print Assumptions C36_explicit_refuted.

(** Interactions: [ks] are the kinds of the members. *)
Theorem C36_interaction : forall (K : Type) (use_type normalized : bool) (explicit : list K -> option smoother) group props,
  List.length group = List.length props -> (2 <= List.length group)%nat -> explicit group = None ->
  exists ks t, Forall2 feature_kind props ks /\ group_type ks t /\
    choice_fct ChoiceWeightedMean use_type normalized explicit group props = Some (wrapped use_type normalized WeightedMeanND t).
Proof. exact @choice_interaction. Qed.
Print Assumptions C36_interaction.

Theorem C36_interaction_group_by : forall (K : Type) (use_type normalized : bool) (explicit : list K -> option smoother)
    outer c outer_props p,
  List.length outer = List.length outer_props -> outer <> [] -> explicit (outer ++ [c]) = None -> explicit [c] = None -> usable p ->
  exists k s, feature_kind p k /\ smoother_of_kind normalized p k s /\
    choice_fct ChoiceGroupBy use_type normalized explicit (outer ++ [c]) (outer_props ++ [p]) =
      Some (GroupByCB (wrapped use_type normalized s (type_of_kind k)) (S (List.length outer))).
Proof. exact @choice_interaction_group_by. Qed.
Print Assumptions C36_interaction_group_by.

Theorem C36_interaction_group_by_explicit : forall (K : Type) (use_type normalized : bool) (explicit : list K -> option smoother)
    outer c outer_props p s,
  List.length outer = List.length outer_props -> outer <> [] -> explicit (outer ++ [c]) = None -> explicit [c] = Some s ->
  exists k, feature_kind p k /\
    choice_fct ChoiceGroupBy use_type normalized explicit (outer ++ [c]) (outer_props ++ [p]) =
      Some (GroupByCB (match s with GroupByCB _ _ => s | _ => wrapped use_type normalized s (type_of_kind k) end) (S (List.length outer))).
Proof. exact @choice_interaction_group_by_explicit. Qed.
Print Assumptions C36_interaction_group_by_explicit.

Theorem C36_unsmoothed : forall (K : Type) (use_type normalized : bool) (explicit : list K -> option smoother) group props,
  List.length group = List.length props -> props <> [] ->
  exists ks t, Forall2 feature_kind props ks /\ group_type ks t /\
    choice_fct ChoiceNone use_type normalized explicit group props =
      Some (wrapped use_type normalized (match group with [_] => BinValues1D | _ => BinValuesND end) t).
Proof. exact @choice_none_always. Qed.
Print Assumptions C36_unsmoothed.

Example c36_example : choice_fct ChoiceWeightedMean true true (fun _ : list nat => None) [7%nat] [4105] =
    Some (NormalizedCut (Isotonic DecreasingOnly) Interpolating) /\ feature_kind 4105 Monotonic /\
  choice_fct ChoiceGroupBy true false (fun _ : list nat => None) [1; 2]%nat [4; 256] =
    Some (GroupByCB (Cut LinearExtrapolator Extrapolating) 2) /\ usable 256 /\ usable 16.
Proof. exact ex_c36. Qed.

(** ** C45 *)
(** [Keqb] is the equality of column labels. *)
Theorem C45_default_groups : forall (K : Type) (Keqb : K -> K -> bool), (forall a b, Keqb a b = true <-> a = b) ->
  forall prior weight columns,
  exists cs, without (fun c => prior = Some c \/ weight = Some c) cs columns /\
    init_feature_groups Keqb None prior weight columns = map Single cs.
Proof. exact @default_groups. Qed.
Print Assumptions C45_default_groups.

(** Each group becomes a feature with the declared properties and the smoother
    chosen for them; the first failing choice is the only way to fail. *)
Theorem C45_features : forall (K : Type) choice properties (groups : list (group_or_id K)),
  (forall g, In g groups -> choice (columns_of g) (map (property_of properties) (columns_of g)) <> None) ->
  exists fs, create_features choice properties (Some groups) = Some fs /\
    Forall2 (fun g f => feature_id f = (columns_of g, type_of g) /\
                        fi_props f = map (property_of properties) (fi_group f) /\
                        choice (fi_group f) (fi_props f) = Some (fi_smoother f)) groups fs.
Proof. exact @create_features_ok. Qed.
Print Assumptions C45_features.

Theorem C45_features_fail : forall (K : Type) choice properties (groups : list (group_or_id K)),
  create_features choice properties (Some groups) = None <->
  exists g, In g groups /\ choice (columns_of g) (map (property_of properties) (columns_of g)) = None.
Proof. exact @create_features_fails. Qed.
Print Assumptions C45_features_fail.

(** Given groups stay; default groups are those of the first fit. *)
Theorem C45_given_groups : forall (K : Type) (Keqb : K -> K -> bool) g prior weight fits,
  groups_after Keqb (Some g) prior weight fits = Some g.
Proof. exact @groups_given. Qed.
Print Assumptions C45_given_groups.
Theorem C45_first_fit : forall (K : Type) (Keqb : K -> K -> bool) prior weight columns fits,
  groups_after Keqb None prior weight (columns :: fits) = Some (init_feature_groups Keqb None prior weight columns).
Proof. exact @groups_first. Qed.
Print Assumptions C45_first_fit.
(** A second fit on data with a further column does not use it. *)
Theorem C45_refit_refuted : exists (columns columns' : list nat),
  groups_after Nat.eqb None None (Some 9%nat) [columns; columns'] <>
  Some (init_feature_groups Nat.eqb None None (Some 9%nat) columns').
Proof. exact refit_refuted. Qed.
Print Assumptions C45_refit_refuted.

Example c45_example : init_feature_groups Nat.eqb None (Some 3%nat) (Some 9%nat) [1; 3; 2; 9]%nat = [Single 1; Single 2]%nat /\
  create_features (choice_fct ChoiceWeightedMean true true (fun _ => None)) (Some (fun c => if Nat.eqb c 1 then Some 2 else None))
    (Some [Single 1; Single 2]%nat) =
  Some [{| fi_group := [1%nat]; fi_type := None; fi_props := [2]; fi_smoother := NormalizedCut WeightedMeanNeighbors Discontinuous |};
        {| fi_group := [2%nat]; fi_type := None; fi_props := [16]; fi_smoother := NormalizedCut WeightedMean1D Discontinuous |}].
Proof. exact ex_c45. Qed.

(** ** C57 *)
Theorem C57_found : forall (K : Type) (Keqb : K -> K -> bool), (forall a b, Keqb a b = true <-> a = b) ->
  forall fs f, NoDup (map feature_id fs) -> In f fs ->
  get_feature Keqb fs (Tuple (fi_group f)) (fi_type f) = Some f /\
  get_item Keqb fs (Id (fi_group f) (fi_type f)) = Some f.
Proof. exact @get_item_unique. Qed.
Print Assumptions C57_found.

Theorem C57_only_that : forall (K : Type) (Keqb : K -> K -> bool), (forall a b, Keqb a b = true <-> a = b) ->
  forall fs g f, get_item Keqb fs g = Some f -> In f fs /\ feature_id f = (columns_of g, type_of g).
Proof. exact @get_item_some. Qed.
Print Assumptions C57_only_that.

Theorem C57_unknown : forall (K : Type) (Keqb : K -> K -> bool), (forall a b, Keqb a b = true <-> a = b) ->
  forall fs g, get_item Keqb fs g = None <-> ~ exists f, In f fs /\ feature_id f = (columns_of g, type_of g).
Proof. exact @get_item_none. Qed.
Print Assumptions C57_unknown.

Theorem C57_forms : forall (K : Type) (Keqb : K -> K -> bool) fs,
  (forall c : K, get_item Keqb fs (Single c) = get_item Keqb fs (Id [c] None)) /\
  (forall g, get_item Keqb fs (Tuple g) = get_item Keqb fs (Id g None)) /\
  (forall g t, get_feature Keqb fs (Tuple g) t = get_item Keqb fs (Id g t)) /\
  (forall c t, get_feature Keqb fs (Single c) t = get_item Keqb fs (Id [c] t)).
Proof. exact @get_item_forms. Qed.
Print Assumptions C57_forms.

Example c57_example : let f := {| fi_group := [1%nat]; fi_type := None; fi_props := [4]; fi_smoother := WeightedMean1D |} in
  let e := {| fi_group := [1%nat]; fi_type := Some "external"%string; fi_props := [4]; fi_smoother := WeightedMean1D |} in
  NoDup (map feature_id [f; e]) /\ get_feature Nat.eqb [f; e] (Single 1%nat) (Some "external"%string) = Some e.
Proof. exact ex_c57. Qed.
