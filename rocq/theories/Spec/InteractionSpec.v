(** Subsets of features, their listing, and best-scored choices. *)
From Coq Require Import ZArith QArith List Bool String Permutation.
From Verif.Model Require Import Num.
Import ListNotations.

(** [s] is obtained from [l] by leaving out elements. *)
Inductive subsequence {A} : list A -> list A -> Prop :=
| sub_nil : subsequence [] []
| sub_skip x s l : subsequence s l -> subsequence s (x :: l)
| sub_take x s l : subsequence s l -> subsequence (x :: s) (x :: l).

(** A set of features, written as a list without repetitions: between 2 and
    [dim] of the given features. *)
Definition feature_set {A} (features : list A) (dim : nat) (s : list A) : Prop :=
  NoDup s /\ incl s features /\ (2 <= List.length s <= dim)%nat.

(** [s] is listed exactly once in [ts], the order of its elements not counting. *)
Definition listed_once {A} (s : list A) (ts : list (list A)) : Prop :=
  exists i, (exists t, nth_error ts i = Some t /\ Permutation s t) /\
            forall j t, nth_error ts j = Some t -> Permutation s t -> j = i.

(** The value of a binned cell: a bin number from 0, or -1 for a missing value. *)
Definition bin_cell (x : fnum) (k : Z) : Prop := x = Fin (inject_Z k) /\ (-1 <= k)%Z.

(** A score; a column without one (NaN) is worth less than any other. *)
Definition worth (s t : fnum) : Prop :=
  match s, t with
  | NaN, _ => True
  | _, NaN => False
  | _, _ => fle s t = true
  end.

(** The value of a feature of the term is missing in the row. *)
Definition missing_in (term : list string) (row : string -> fnum) : Prop :=
  exists f, In f term /\ row f = Fin (inject_Z (-1)).
