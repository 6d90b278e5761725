(** Meaning of flag values, bit by bit, and of their textual form. *)
From Coq Require Import NArith List Bool String Ascii.
Import ListNotations.
Local Open Scope N_scope.

(** Bit numbers of the individual properties. *)
Definition has_bit (p : N) (k : N) : Prop := N.testbit p k = true.

(** Exactly one of three propositions. *)
Definition exactly_one (a b c : Prop) : Prop :=
  (a /\ ~ b /\ ~ c) \/ (~ a /\ b /\ ~ c) \/ (~ a /\ ~ b /\ c).

(** Words of a text: maximal runs of characters other than space and bar. *)
Definition is_sep (c : ascii) : bool :=
  Ascii.eqb c " "%char || Ascii.eqb c "|"%char.

Fixpoint words_aux (s : string) (cur : string) : list string :=
  match s with
  | EmptyString => match cur with EmptyString => [] | _ => [cur] end
  | String c r =>
      if is_sep c
      then match cur with EmptyString => words_aux r EmptyString
                     | _ => cur :: words_aux r EmptyString end
      else words_aux r (cur ++ String c EmptyString)%string
  end.
Definition words (s : string) : list string := words_aux s EmptyString.

(** Documented value of each named property. *)
Definition named_flag (name : string) : option N :=
  match name with
  | "IS_CONTINUOUS" => Some 1
  | "IS_ORDERED" => Some 2
  | "IS_UNORDERED" => Some 4
  | "IS_MONOTONIC" => Some 9
  | "HAS_MISSING" => Some 16
  | "MISSING_NOT_LEARNED" => Some 48
  | "USE_ORIGINAL" => Some 64
  | "CORR_TO_WIDTH" => Some 128
  | "IS_LINEAR" => Some 256
  | "IS_SEASONAL" => Some 512
  | "HAS_MAGIC_INT_MISSING" => Some 1040
  | "INCREASING" => Some 2048
  | "DECREASING" => Some 4096
  | _ => None
  end%string.

(** All public flag constants. *)
Definition public_flags : list N :=
  [1; 2; 4; 9; 16; 48; 64; 128; 256; 512; 1040; 2048; 4096].

(** The public constants that the text conversion knows (the first ten). *)
Definition listed_flags : list N := [1; 2; 4; 9; 16; 48; 64; 128; 256; 512].

(** Or of a list of flags. *)
Definition or_all (l : list N) : N := fold_right N.lor 0 l.

(** The value named by a text: or of the named properties. *)
Fixpoint or_names (l : list string) : option N :=
  match l with
  | [] => Some 0
  | n :: r => match named_flag n, or_names r with
              | Some a, Some b => Some (N.lor a b)
              | _, _ => None
              end
  end.
Definition value_of_text (s : string) : option N := or_names (words s).
