(** C137: explicit smoothers. *)
From Coq Require Import NArith ZArith List String.
From Verif.Model Require Import Flags SmootherChoice ExplicitSmoothers.
From Verif.Spec Require Import FlagSpec SmootherSpec ExplicitSpec.
From Verif.Proofs Require Import ExplicitFacts ExplicitExamples.
Import ListNotations.

(** The constructor refuses exactly the dictionaries that are not well-formed. *)
Theorem C137_rejected : forall c use_type normalized d group props,
  construct_and_choose c use_type normalized (Some d) group props = RejectedByConstructor <-> ~ well_formed d.
Proof. exact explicit_rejected. Qed.
Print Assumptions C137_rejected.
Example C137_rejected_case : ~ well_formed bare_name /\ ~ well_formed with_id /\ ~ well_formed number_key.
Proof. exact bad_entries. Qed.

(** The entry of a feature group is used for it. *)
Theorem C137_obeyed_partial : forall use_type normalized d names props s,
  well_formed d -> NoDup (map fst d) -> In (names_key names, Smoother s) d ->
  List.length names = List.length props -> props <> [] ->
  (exists ks t, Forall2 feature_kind props ks /\ group_type ks t /\
     construct_and_choose ChoiceWeightedMean use_type normalized (Some d) (named names) props =
       Chosen (wrapped use_type normalized s t)) /\
  (exists k, feature_kind (last props 0%N) k /\
     construct_and_choose ChoiceGroupBy use_type normalized (Some d) (named names) props =
       Chosen (match s with GroupByCB _ _ => s | _ => wrapped use_type normalized s (type_of_kind k) end)).
Proof. exact explicit_obeyed. Qed.
Print Assumptions C137_obeyed_partial.
Example C137_obeyed_case : well_formed two_entries /\ NoDup (map fst two_entries).
Proof. exact two_entries_fine. Qed.

(** Within a group-by smoother the entry of the innermost column is used. *)
Theorem C137_innermost : forall use_type normalized d names props s,
  well_formed d -> NoDup (map fst d) -> ~ mentions d names -> (2 <= List.length names)%nat ->
  List.length names = List.length props ->
  In (names_key [last names ""%string], Smoother s) d -> is_group_by s = false ->
  exists k, feature_kind (last props 0%N) k /\
    construct_and_choose ChoiceGroupBy use_type normalized (Some d) (named names) props =
      Chosen (GroupByCB (wrapped use_type normalized s (type_of_kind k)) (List.length names)).
Proof. exact explicit_innermost. Qed.
Print Assumptions C137_innermost.
Example C137_innermost_case :
  construct_and_choose ChoiceWeightedMean true true (Some two_entries) (named ["price"%string]) [IS_CONTINUOUS] =
    Chosen (NormalizedCut (Other 7) Interpolating) /\
  construct_and_choose ChoiceGroupBy true true (Some two_entries) (named ["store"%string; "price"%string])
    [IS_UNORDERED; IS_CONTINUOUS] = Chosen (GroupByCB (NormalizedCut (Other 7) Interpolating) 2) /\
  construct_and_choose ChoiceWeightedMean true true (Some two_entries) (named ["day"%string]) [IS_UNORDERED] =
    Chosen (NormalizedCut WeightedMean1D Discontinuous).
Proof. exact two_entries_case. Qed.

(** Other feature groups get the smoothers they get without a dictionary. *)
Theorem C137_untouched : forall c use_type normalized d names props,
  well_formed d -> ~ mentions d names -> ~ mentions d [last names ""%string] ->
  construct_and_choose c use_type normalized (Some d) (named names) props =
  construct_and_choose c use_type normalized None (named names) props.
Proof. exact explicit_untouched. Qed.
Print Assumptions C137_untouched.
Theorem C137_untouched_mean : forall use_type normalized d names props,
  well_formed d -> ~ mentions d names ->
  construct_and_choose ChoiceWeightedMean use_type normalized (Some d) (named names) props =
  construct_and_choose ChoiceWeightedMean use_type normalized None (named names) props.
Proof. exact explicit_untouched_mean. Qed.
Print Assumptions C137_untouched_mean.

(** No dictionary has an effect on the columns of an array. *)
Theorem C137_numbered_refuted : forall c use_type normalized d numbers props,
  well_formed d -> numbers <> [] ->
  construct_and_choose c use_type normalized (Some d) (numbered numbers) props =
  construct_and_choose c use_type normalized None (numbered numbers) props.
Proof. exact explicit_numbered_ignored. Qed.
Print Assumptions C137_numbered_refuted.
