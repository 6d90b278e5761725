(** Model of the dictionary of explicit smoothers of cyclic_boosting/common_smoothers.py:
    its check in the constructor and its use. *)
From Coq Require Import NArith ZArith List Bool String.
From Verif.Model Require Import Flags SmootherChoice.
Import ListNotations.

(** Keys of the dictionary: strings, integers, None and tuples; a FeatureID
    (features.py:11) is the tuple of a group and a type. *)
Inductive key :=
| Text (s : string)
| Number (z : Z)
| NoneKey
| TupleOf (items : list key).

(** Equality of keys in Python. *)
Fixpoint key_eqb (a b : key) : bool :=
  match a, b with
  | Text s, Text t => String.eqb s t
  | Number x, Number y => Z.eqb x y
  | NoneKey, NoneKey => true
  | TupleOf l, TupleOf m =>
      (fix go (l m : list key) : bool :=
         match l, m with
         | [], [] => true
         | x :: l, y :: m => key_eqb x y && go l m
         | _, _ => false
         end) l m
  | _, _ => false
  end.

(** Values of the dictionary: instances of AbstractBinSmoother, or other objects. *)
Inductive entry := Smoother (s : smoother) | NotASmoother.
(** A dictionary; each key occurs once. *)
Definition dictionary := list (key * entry).

(** [is_tuple_of_strings] (common_smoothers.py:182-183). *)
Definition is_text (k : key) : bool := match k with Text _ => true | _ => false end.
Definition is_tuple_of_strings (k : key) : bool := match k with TupleOf l => forallb is_text l | _ => false end.
Definition is_smoother (e : entry) : bool := match e with Smoother _ => true | NotASmoother => false end.

(** [_validate_explicit_smoothers] (common_smoothers.py:177-196); [None] is the
    ValueError. *)
Definition validate_explicit_smoothers (d : option dictionary) : option dictionary :=
  match d with
  | None => Some []
  | Some d =>
      if negb (forallb (fun kv => is_tuple_of_strings (fst kv)) d) then None
      else if negb (forallb (fun kv => is_smoother (snd kv)) d) then None
      else Some d
  end.

(** [dict.get] (common_smoothers.py:218, 244). *)
Fixpoint dict_get (d : dictionary) (k : key) : option entry :=
  match d with
  | [] => None
  | (k', e) :: r => if key_eqb k' k then Some e else dict_get r k
  end.

(** Labels of columns: names in data frames, numbers in arrays. *)
Inductive column := Named (s : string) | Numbered (n : Z).
Definition column_key (c : column) : key := match c with Named s => Text s | Numbered n => Number n end.

(** The lookups of [choice_fct] and [get_onedim_smoother] (common_smoothers.py:218-223,
    243-250); the checked dictionary holds smoothers only. *)
Definition explicit_of (d : dictionary) (group : list column) : option smoother :=
  match dict_get d (TupleOf (map column_key group)) with
  | Some (Smoother s) => Some s
  | _ => None
  end.

(** The constructor (common_smoothers.py:171-175) and [choice_fct] of the object. *)
Inductive choice_result := RejectedByConstructor | NoSmoother | Chosen (s : smoother).
Definition construct_and_choose (c : choice_class) (use_regression_type use_normalization : bool)
    (d : option dictionary) (group : list column) (props : list N) : choice_result :=
  match validate_explicit_smoothers d with
  | None => RejectedByConstructor
  | Some d =>
      match choice_fct c use_regression_type use_normalization (explicit_of d) group props with
      | Some s => Chosen s
      | None => NoSmoother
      end
  end.
