(** C43, C70, C71: interaction terms. *)
From Coq Require Import ZArith QArith List Bool String Permutation.
From Verif.Model Require Import Num LexBins Interactions.
From Verif.Spec Require Import InteractionSpec.
From Verif.Proofs Require Import InteractionFacts.
Import ListNotations.

(** ** C43 *)
(** The candidates are the subsequences of 2 to [dim] features. *)
Theorem C43_candidates : forall A (features : list A) dim t,
  In t (create_interactions features dim) <->
  subsequence t features /\ (2 <= List.length t <= dim)%nat.
Proof. intro A. exact candidates_iff. Qed.
Print Assumptions C43_candidates.

(** Every set of 2 to [dim] features is listed exactly once, and nothing else. *)
Theorem C43_exactly_once : forall A (features : list A) dim s, NoDup features ->
  feature_set features dim s -> listed_once s (create_interactions features dim).
Proof. intro A. exact candidates_once. Qed.
Print Assumptions C43_exactly_once.

Theorem C43_only_sets : forall A (features : list A) dim t, NoDup features ->
  In t (create_interactions features dim) -> feature_set features dim t.
Proof. intro A. exact candidates_sets. Qed.
Print Assumptions C43_only_sets.

Example c43_candidates : create_interactions ex_features 3 =
  [["a"; "b"]; ["a"; "c"]; ["b"; "c"]; ["a"; "b"; "c"]]%string /\ NoDup ex_features /\
  feature_set ex_features 2 ["c"; "a"]%string.
Proof. exact ex_candidates. Qed.

(** ** C70 *)
(** Two rows get the same number in the column of a term iff they are in the
    same bins of all its features or both lack a value. *)
Theorem C70_column : forall (binned : frame) term,
  (forall row f, In row binned -> In f term -> exists k, bin_cell (row f) k) ->
  forall i j row row', nth_error binned i = Some row -> nth_error binned j = Some row' ->
  (nth_error (interaction_column binned term) i = nth_error (interaction_column binned term) j <->
   (forall f, In f term -> row f = row' f) \/ (missing_in term row /\ missing_in term row')).
Proof. exact column_distinguishes. Qed.
Print Assumptions C70_column.

Example c70_columns :
  (forall row f, In row ex_frame -> In f ["a"; "b"]%string -> exists k, bin_cell (row f) k) /\
  map (fun t => interaction_column ex_frame t) (create_interactions ex_features 2) =
    [[1; 3; 4; 1]; [2; 3; 2; 0]; [5; 3; 6; 3]]%Z.
Proof. exact ex_columns. Qed.

(** ** C71 *)
(** For scores that are missing (NaN) or not negative, like those of the F-test:
    [k] terms are selected (all if there are fewer), in the order of the
    candidates, and no term left out is better than a selected one. *)
Theorem C71_selection : forall score_func binned features dim k,
  let terms := create_interactions features dim in
  let score t := score_func (interaction_column binned t) in
  let selected := select_interaction_terms score_func binned features dim k in
  NoDup features ->
  (forall t, In t terms -> score t = NaN \/ fle (Fin 0) (score t) = true) ->
  subsequence selected terms /\ List.length selected = Nat.min k (List.length terms) /\
  forall t u, In t terms -> ~ In t selected -> In u selected -> worth (score t) (score u).
Proof. exact selection. Qed.
Print Assumptions C71_selection.

Example c71_selection :
  select_interaction_terms ex_score ex_frame ex_features 2 2 = [["a"; "b"]; ["b"; "c"]]%string /\
  (forall t, In t (create_interactions ex_features 2) ->
     ex_score (interaction_column ex_frame t) = NaN \/ fle (Fin 0) (ex_score (interaction_column ex_frame t)) = true).
Proof. exact ex_selection. Qed.
