(** Examples for explicit smoothers. *)
From Coq Require Import NArith ZArith List String Lia.
From Verif.Model Require Import Flags SmootherChoice ExplicitSmoothers.
From Verif.Spec Require Import SmootherSpec ExplicitSpec.
From Verif.Proofs Require Import ExplicitFacts.
Import ListNotations.
Local Open Scope string_scope.

(** Smoothers for the column "price", and for the group of "store" and "day". *)
Definition two_entries : dictionary :=
  [(names_key ["price"], Smoother (Other 7)); (names_key ["store"; "day"], Smoother BinValuesND)].
(** The same without the tuple around "price"; with a FeatureID; without a smoother. *)
Definition bare_name : dictionary := [(Text "price", Smoother (Other 7))].
Definition with_id : dictionary := [(TupleOf [names_key ["price"]; NoneKey], Smoother (Other 7))].
Definition number_key : dictionary := [(TupleOf [Number 0], Smoother (Other 7))].

Lemma two_entries_fine : well_formed two_entries /\ NoDup (map fst two_entries).
Proof.
  split.
  - repeat constructor; cbn [fst snd]; eexists; reflexivity.
  - constructor; [| constructor; [intros [] | constructor]]. intros [H | []]. discriminate H.
Qed.
Lemma bad_entries : ~ well_formed bare_name /\ ~ well_formed with_id /\ ~ well_formed number_key.
Proof.
  split; [|split]; intros H; apply checks_iff in H; destruct H as [H _]; discriminate H.
Qed.
Lemma two_entries_case :
  construct_and_choose ChoiceWeightedMean true true (Some two_entries) (named ["price"]) [IS_CONTINUOUS] =
    Chosen (NormalizedCut (Other 7) Interpolating) /\
  construct_and_choose ChoiceGroupBy true true (Some two_entries) (named ["store"; "price"])
    [IS_UNORDERED; IS_CONTINUOUS] = Chosen (GroupByCB (NormalizedCut (Other 7) Interpolating) 2) /\
  construct_and_choose ChoiceWeightedMean true true (Some two_entries) (named ["day"]) [IS_UNORDERED] =
    Chosen (NormalizedCut WeightedMean1D Discontinuous).
Proof. repeat split; vm_compute; reflexivity. Qed.
