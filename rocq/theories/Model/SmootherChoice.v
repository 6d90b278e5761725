(** Model of cyclic_boosting/common_smoothers.py and of the creation and lookup of
    features in features.py and base.py. [K] is the type of column labels, [None]
    in place of a smoother an exception. *)
From Coq Require Import NArith List Bool String.
From Verif.Model Require Import Flags.
Import ListNotations.
Local Open Scope N_scope.

Inductive regression_type := Discontinuous | Interpolating | Extrapolating.
Inductive direction := AutoDirection | IncreasingOnly | DecreasingOnly.

(** Smoothers as constructed; [Other] stands for one given by the user that is none
    of the listed classes. The meta-smoothers of meta_smoother.py are [Normalized],
    [Cut] and [NormalizedCut]. [clone] (features.py:408) leaves this unchanged. *)
Inductive smoother :=
| WeightedMean1D | WeightedMeanNeighbors | OrthogonalPolynomial | LinearExtrapolator
| Seasonal (offset_tozero : bool) | Isotonic (d : direction)
| WeightedMeanND | BinValues1D | BinValuesND | Other (name : nat)
| GroupByCB (inner : smoother) (n_dim : nat)
| Normalized (s : smoother) | Cut (s : smoother) (t : regression_type)
| NormalizedCut (s : smoother) (t : regression_type).

(** [_simplify_flags] (common_smoothers.py:23-63); [None]: [flags_to_string] in the
    warning raises ValueError. *)
Definition simplify_flags (p : N) : option N :=
  if is_linear_set p then Some IS_LINEAR
  else if is_seasonal_set p then Some IS_SEASONAL
  else if is_monotonic_set p then
    if increasing_set p then Some (N.lor IS_MONOTONIC INCREASING)
    else if decreasing_set p then Some (N.lor IS_MONOTONIC DECREASING)
    else Some IS_MONOTONIC
  else if is_continuous_set p then Some IS_CONTINUOUS
  else if is_ordered_set p then Some IS_ORDERED
  else if is_unordered_set p then Some IS_UNORDERED
  else if has_missing_set p then Some IS_UNORDERED
  else match flag_string p with Some _ => Some IS_UNORDERED | None => None end.

(** [_default_smoother_types] (common_smoothers.py:66-82): lookup in the
    dictionary, [None] is the KeyError. *)
Definition default_smoother_types (use_normalization : bool) (key : N) : option smoother :=
  if key =? IS_UNORDERED then Some WeightedMean1D
  else if key =? IS_ORDERED then Some WeightedMeanNeighbors
  else if key =? IS_CONTINUOUS then Some OrthogonalPolynomial
  else if key =? IS_LINEAR then Some LinearExtrapolator
  else if key =? IS_SEASONAL then Some (Seasonal (negb use_normalization))
  else if key =? IS_MONOTONIC then Some (Isotonic AutoDirection)
  else if key =? N.lor IS_MONOTONIC INCREASING then Some (Isotonic IncreasingOnly)
  else if key =? N.lor IS_MONOTONIC DECREASING then Some (Isotonic DecreasingOnly)
  else None.

(** [determine_reg_type] for one property (common_smoothers.py:101-107) ... *)
Definition reg_type_1 (p : N) : regression_type :=
  if is_linear_set p then Extrapolating
  else if is_seasonal_set p || is_continuous_set p then Interpolating
  else Discontinuous.
(** ... and for a tuple (common_smoothers.py:108-116); [zip] ends with the shorter
    list. *)
Definition is_type (t u : regression_type) : bool :=
  match t, u with
  | Discontinuous, Discontinuous | Interpolating, Interpolating | Extrapolating, Extrapolating => true
  | _, _ => false
  end.
Definition determine_reg_type {K} (group : list K) (props : list N) : regression_type :=
  let reg_types := map (fun gp => reg_type_1 (snd gp)) (combine group props) in
  if existsb (is_type Discontinuous) reg_types then Discontinuous
  else if existsb (is_type Interpolating) reg_types then Interpolating
  else Extrapolating.

(** [determine_meta_smoother] (common_smoothers.py:119-146). *)
Definition determine_meta_smoother (s : smoother) (use_normalization : bool) (t : option regression_type) : smoother :=
  match use_normalization, t with
  | false, None => s
  | true, None => Normalized s
  | false, Some t => Cut s t
  | true, Some t => NormalizedCut s t
  end.

Section Choice.
Context {K : Type}.
(** The settings of [SmootherChoice] (common_smoothers.py:171-175); the dictionary
    of explicit smoothers is a lookup function. *)
Variables (use_regression_type use_normalization : bool) (explicit : list K -> option smoother).

(** [get_onedim_smoother] (common_smoothers.py:229-252). *)
Definition get_onedim_smoother (p : N) (name : K) : option smoother :=
  match explicit [name] with
  | Some s => Some s
  | None => match simplify_flags p with
            | Some k => default_smoother_types use_normalization k
            | None => None
            end
  end.

(** [wrap_smoother] with a tuple of properties (common_smoothers.py:276-298) ... *)
Definition wrap_smoother (s : smoother) (group : list K) (props : list N) : smoother :=
  determine_meta_smoother s use_normalization
    (if use_regression_type then Some (determine_reg_type group props) else None).
(** ... and with the property of the innermost column (common_smoothers.py:322-330);
    [None] is the IndexError of an empty tuple. *)
Definition is_group_by (s : smoother) : bool := match s with GroupByCB _ _ => true | _ => false end.
Definition last_opt {A} (l : list A) : option A := match rev l with x :: _ => Some x | [] => None end.
Definition wrap_innermost (s : smoother) (props : list N) : option smoother :=
  if is_group_by s then Some s
  else match last_opt props with
       | Some p => Some (determine_meta_smoother s use_normalization
                           (if use_regression_type then Some (reg_type_1 p) else None))
       | None => None
       end.

(** [SmootherChoiceWeightedMean] (common_smoothers.py:301-314). *)
Definition raw_weighted_mean (group : list K) (props : list N) : option smoother :=
  match group with
  | _ :: _ :: _ => Some WeightedMeanND
  | [name] => match props with p :: _ => get_onedim_smoother p name | [] => None end
  | [] => None
  end.
Definition choice_weighted_mean (group : list K) (props : list N) : option smoother :=
  match (match explicit group with Some s => Some s | None => raw_weighted_mean group props end) with
  | Some s => Some (wrap_smoother s group props)
  | None => None
  end.

(** [SmootherChoiceGroupBy] (common_smoothers.py:317-340). *)
Definition raw_group_by (group : list K) (props : list N) : option smoother :=
  match last_opt props, last_opt group with
  | Some p, Some name =>
      match get_onedim_smoother p name with
      | Some innermost =>
          if Nat.ltb 1 (List.length group)
          then option_map (fun s => GroupByCB s (List.length group)) (wrap_innermost innermost props)
          else Some innermost
      | None => None
      end
  | _, _ => None
  end.
Definition choice_group_by (group : list K) (props : list N) : option smoother :=
  match (match explicit group with Some s => Some s | None => raw_group_by group props end) with
  | Some s => wrap_innermost s props
  | None => None
  end.

(** [NoSmootherChoice] (common_smoothers.py:343-353). *)
Definition choice_none (group : list K) (props : list N) : option smoother :=
  Some (wrap_smoother (if Nat.eqb (List.length group) 1 then BinValues1D else BinValuesND) group props).
End Choice.

(** [choice_fct] of the three classes. *)
Inductive choice_class := ChoiceWeightedMean | ChoiceGroupBy | ChoiceNone.
Definition choice_fct {K} (c : choice_class) (use_regression_type use_normalization : bool)
    (explicit : list K -> option smoother) (group : list K) (props : list N) : option smoother :=
  match c with
  | ChoiceWeightedMean => choice_weighted_mean use_regression_type use_normalization explicit group props
  | ChoiceGroupBy => choice_group_by use_regression_type use_normalization explicit group props
  | ChoiceNone => choice_none use_regression_type use_normalization group props
  end.

(** Features (features.py:11, 63-78): feature ids are pairs of group and type. *)
Section Features.
Context {K : Type} (Keqb : K -> K -> bool).

(** A group or id as accepted by [create_feature_id] (features.py:280-289): a
    FeatureID, a tuple, or a single column. *)
Inductive group_or_id := Id (group : list K) (type : option string) | Tuple (group : list K) | Single (column : K).
Definition create_feature_id (g : group_or_id) (default_type : option string) : list K * option string :=
  match g with
  | Id group type => (group, type)
  | Tuple group => (group, default_type)
  | Single c => ([c], default_type)
  end.

Record feature_info := { fi_group : list K; fi_type : option string; fi_props : list N; fi_smoother : smoother }.

(** [create_features] (features.py:379-413); the first exception ends it. *)
Definition make_feature (choice : list K -> list N -> option smoother) (properties : option (K -> option N))
    (g : group_or_id) : option feature_info :=
  let (group, type) := create_feature_id g None in
  let props := read_feature_property properties group HAS_MISSING in
  match choice group props with
  | Some s => Some {| fi_group := group; fi_type := type; fi_props := props; fi_smoother := s |}
  | None => None
  end.
Fixpoint create_features_list (choice : list K -> list N -> option smoother) (properties : option (K -> option N))
    (groups : list group_or_id) : option (list feature_info) :=
  match groups with
  | [] => Some []
  | g :: r =>
      match make_feature choice properties g with
      | None => None
      | Some f => match create_features_list choice properties r with
                  | Some fs => Some (f :: fs)
                  | None => None
                  end
      end
  end.
Definition create_features choice properties (groups : option (list group_or_id)) : option (list feature_info) :=
  create_features_list choice properties (match groups with Some g => g | None => [] end).

(** [FeatureList.__getitem__] (features.py:337-358); [None] is the KeyError. *)
Fixpoint group_eqb (a b : list K) : bool :=
  match a, b with
  | [], [] => true
  | x :: r, y :: s => Keqb x y && group_eqb r s
  | _, _ => false
  end.
Definition type_eqb (a b : option string) : bool :=
  match a, b with
  | None, None => true
  | Some x, Some y => String.eqb x y
  | _, _ => false
  end.
Definition get_item (features : list feature_info) (g : group_or_id) : option feature_info :=
  let (group, type) := create_feature_id g None in
  find (fun f => group_eqb (fi_group f) group && type_eqb (fi_type f) type) features.

(** [get_feature] (features.py:360-377). *)
Definition get_feature (features : list feature_info) (g : group_or_id) (type : option string) : option feature_info :=
  let (group, type) := create_feature_id g type in get_item features (Id group type).

(** [get_feature_column_names_or_indices] (ecdf_transformer.py:313-361). *)
Definition feature_columns (columns excluded : list K) : list K :=
  filter (fun c => negb (existsb (Keqb c) excluded)) columns.

(** [_init_default_feature_groups] and its call in [fit] (base.py:381-393,
    706-707): the feature groups kept by the estimator. *)
Definition exclude_columns (prior weight : option K) : list K :=
  (match prior with Some c => [c] | None => [] end) ++ (match weight with Some c => [c] | None => [] end).
Definition init_feature_groups (groups : option (list group_or_id)) (prior weight : option K) (columns : list K)
  : list group_or_id :=
  match groups with
  | Some g => g
  | None => map Single (feature_columns columns (exclude_columns prior weight))
  end.
(** The feature groups after a sequence of fits on data with the given columns. *)
Fixpoint groups_after (groups : option (list group_or_id)) (prior weight : option K) (fits : list (list K))
  : option (list group_or_id) :=
  match fits with
  | [] => groups
  | columns :: r => groups_after (Some (init_feature_groups groups prior weight columns)) prior weight r
  end.
End Features.
Arguments group_or_id : clear implicits.
Arguments feature_info : clear implicits.
