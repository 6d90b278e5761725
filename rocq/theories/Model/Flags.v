(** Model of cyclic_boosting/flags.py *)
From Coq Require Import NArith ZArith List Bool String.
Import ListNotations.
Local Open Scope N_scope.

(** Flag constants (flags.py:25-37): each is a bit of [_FeatureProbBit]
    (flags.py:10-22), three of them include a second bit. *)
Definition IS_CONTINUOUS : N := N.shiftl 1 0.
Definition IS_ORDERED : N := N.shiftl 1 1.
Definition IS_UNORDERED : N := N.shiftl 1 2.
Definition IS_MONOTONIC : N := N.lor IS_CONTINUOUS (N.shiftl 1 3).
Definition HAS_MISSING : N := N.shiftl 1 4.
Definition MISSING_NOT_LEARNED : N := N.lor HAS_MISSING (N.shiftl 1 5).
Definition USE_ORIGINAL : N := N.shiftl 1 6.
Definition CORR_TO_WIDTH : N := N.shiftl 1 7.
Definition IS_LINEAR : N := N.shiftl 1 8.
Definition IS_SEASONAL : N := N.shiftl 1 9.
Definition HAS_MAGIC_INT_MISSING : N := N.lor HAS_MISSING (N.shiftl 1 10).
Definition INCREASING : N := N.shiftl 1 11.
Definition DECREASING : N := N.shiftl 1 12.

(** [_FLAG_LIST] (flags.py:39-50) with the values looked up in [globals()]
    (flags.py:389). *)
Definition FLAG_LIST : list (string * N) :=
  [("IS_CONTINUOUS", IS_CONTINUOUS);
   ("IS_ORDERED", IS_ORDERED);
   ("IS_UNORDERED", IS_UNORDERED);
   ("IS_MONOTONIC", IS_MONOTONIC);
   ("HAS_MISSING", HAS_MISSING);
   ("MISSING_NOT_LEARNED", MISSING_NOT_LEARNED);
   ("USE_ORIGINAL", USE_ORIGINAL);
   ("CORR_TO_WIDTH", CORR_TO_WIDTH);
   ("IS_LINEAR", IS_LINEAR);
   ("IS_SEASONAL", IS_SEASONAL)]%string.

(** The predicates (flags.py:53-242): [feature_prop & FLAG == FLAG]. *)
Definition flag_set (flag p : N) : bool := N.land p flag =? flag.
Definition is_continuous_set : N -> bool := flag_set IS_CONTINUOUS.
Definition is_ordered_set : N -> bool := flag_set IS_ORDERED.
Definition is_unordered_set : N -> bool := flag_set IS_UNORDERED.
Definition is_monotonic_set : N -> bool := flag_set IS_MONOTONIC.
Definition increasing_set : N -> bool := flag_set INCREASING.
Definition decreasing_set : N -> bool := flag_set DECREASING.
Definition has_magic_missing_set : N -> bool := flag_set HAS_MAGIC_INT_MISSING.
Definition has_missing_set : N -> bool := flag_set HAS_MISSING.
Definition missing_not_learned_set : N -> bool := flag_set MISSING_NOT_LEARNED.
Definition is_linear_set : N -> bool := flag_set IS_LINEAR.
Definition is_seasonal_set : N -> bool := flag_set IS_SEASONAL.

(** [int(bool)] *)
Definition b2n (b : bool) : N := if b then 1 else 0.

Inductive flag_check : Type :=
| FlagsOk
| RaiseNotExactlyOne   (* ValueError, flags.py:292-296 *)
| RaiseBothDirections. (* ValueError, flags.py:298 *)

(** [check_flags_consistency] (flags.py:245-298). *)
Definition check_flags_consistency (p : N) : flag_check :=
  if negb (b2n (is_continuous_set p) + b2n (is_ordered_set p) + b2n (is_unordered_set p) =? 1)
  then RaiseNotExactlyOne
  else if b2n (increasing_set p) + b2n (decreasing_set p) =? 2
  then RaiseBothDirections
  else FlagsOk.

(** The loop of [_convert_flags_to_string] (flags.py:381-392). *)
Fixpoint convert_loop (l : list (string * N)) (v rest : N) (names : list string)
  : list string * N :=
  match l with
  | [] => (names, rest)
  | (name, flag) :: l' =>
      if N.land flag v =? flag
      then convert_loop l' v (N.ldiff rest flag) (names ++ [name])
      else convert_loop l' v rest names
  end.

(** [_convert_flags_to_string] (flags.py:354-395) without alternative lists;
    [None] is the ValueError "Unknown flags" (flags.py:393-394). *)
Definition flag_string (v : N) : option string :=
  let '(names, rest) := convert_loop FLAG_LIST v v [] in
  if rest =? 0 then Some (String.concat " | " names) else None.

(** A flags value is an int or a tuple of ints (flags.py:301-351). *)
Inductive flags_value : Type :=
| FlagInt (v : N)
| FlagTuple (l : list N).

Inductive flags_text : Type :=
| TextStr (s : string)
| TextTuple (l : list string).

Fixpoint flag_strings (l : list N) : option (list string) :=
  match l with
  | [] => Some []
  | v :: r => match flag_string v, flag_strings r with
              | Some s, Some ss => Some (s :: ss)
              | _, _ => None
              end
  end.

(** [flags_to_string] (flags.py:301-351). *)
Definition flags_to_string (v : flags_value) : option flags_text :=
  match v with
  | FlagInt n => option_map TextStr (flag_string n)
  | FlagTuple l => option_map TextTuple (flag_strings l)
  end.

(** [read_feature_property] (flags.py:398-430) for one column; the dictionary
    is a lookup function ([None] = the [feature_properties] dict is None). *)
Definition read_feature_property_1 {K} (props : option (K -> option N)) (col : K) (default : N) : N :=
  match props with
  | None => default
  | Some d => match d col with Some p => p | None => default end
  end.

(** ... and for a tuple of columns (flags.py:422-423). *)
Definition read_feature_property {K} (props : option (K -> option N)) (group : list K) (default : N)
  : list N :=
  map (fun col => read_feature_property_1 props col default) group.
