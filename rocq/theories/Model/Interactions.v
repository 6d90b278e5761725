(** Interaction terms: candidates, their binned columns and the selection of the
    best ones (interaction_selection.py). *)
From Coq Require Import ZArith QArith List Bool Arith String.
From Verif.Model Require Import Num LexBins.
Import ListNotations.

(** [itertools.combinations(l, n)] (library contract): the subsequences of
    length [n] in the order of the positions they are taken from. *)
Fixpoint combinations {A} (l : list A) (n : nat) : list (list A) :=
  match n, l with
  | O, _ => [[]]
  | S _, [] => []
  | S m, x :: r => map (cons x) (combinations r m) ++ combinations r n
  end.

(** [create_interactions] (interaction_selection.py:28-31): [range(2, dim + 1)]
    is the list of [dim - 1] numbers from 2. *)
Definition create_interactions {A} (features : list A) (dim : nat) : list (list A) :=
  flat_map (combinations features) (seq 2 (dim - 1)).

(** A binned frame (interaction_selection.py:59-60): one function from column
    names to bin numbers per row. Simplification: every feature of the feature
    properties is a column of the frame, so there is no KeyError. *)
Definition frame := list (string -> fnum).

(** [build_binned_interaction_features] (interaction_selection.py:62-70): one
    column of lexicographic bin numbers per term, paired with the term, which
    is the column's name. Terms are assumed to be different from each other
    (two equal names would share one column). *)
Definition interaction_column (binned : frame) (term : list string) : list Z :=
  fst (lexicographic_binnos (List.length term) (map (fun row => map row term) binned) None).
Definition build_binned_interaction_features (binned : frame) (terms : list (list string))
  : list (list string * list Z) :=
  map (fun it => (it, interaction_column binned it)) terms.

(** [SelectKBest._get_support_mask] (library contract, sklearn): NaN scores are
    replaced by the smallest float, the last [k] columns of a stable ascending
    argsort are selected. Like [scores[-k:]], all columns are selected if there
    are fewer than [k] (sklearn before 1.5 raises a ValueError instead). *)
Definition finfo_min : Q := inject_Z (- (2 ^ 53 - 1) * 2 ^ 971).
Definition clean_nan (s : fnum) : fnum := if isnan s then Fin finfo_min else s.
Fixpoint insert_score (x : fnum * nat) (l : list (fnum * nat)) : list (fnum * nat) :=
  match l with
  | [] => [x]
  | y :: r => if fle (fst x) (fst y) then x :: y :: r else y :: insert_score x r
  end.
Definition argsort (scores : list fnum) : list nat :=
  map snd (fold_right insert_score [] (combine scores (seq 0 (List.length scores)))).
Definition support_mask (k : nat) (scores : list fnum) : list bool :=
  let order := argsort (map clean_nan scores) in
  let chosen := skipn (List.length order - k) order in
  map (fun i => existsb (Nat.eqb i) chosen) (seq 0 (List.length scores)).

(** [get_feature_names_out]: the names of the columns of the mask. *)
Fixpoint apply_mask {A} (mask : list bool) (l : list A) : list A :=
  match mask, l with
  | b :: ms, x :: r => if b then x :: apply_mask ms r else apply_mask ms r
  | _, _ => []
  end.

(** [select_interaction_terms_anova] (interaction_selection.py:101-110).
    [score_func] gives the score of a column against the target ([f_classif] or
    [f_regression], treated as an arbitrary function of the column). *)
Definition select_interaction_terms (score_func : list Z -> fnum) (binned : frame)
  (features : list string) (dim k_best : nat) : list (list string) :=
  let columns := build_binned_interaction_features binned (create_interactions features dim) in
  let scores := map (fun c => score_func (snd c)) columns in
  apply_mask (support_mask k_best scores) (map fst columns).
