(** Numbers as the Python code sees them: float64 values with exact rational
    arithmetic for finite values and explicit NaN and infinities. *)
From Coq Require Import ZArith QArith List Bool.
Import ListNotations.

(** A float64 value. Simplification: finite values are exact rationals, so
    rounding, overflow and signed zero are not modelled. *)
Inductive fnum : Type :=
| Fin (q : Q)
| PInf
| NInf
| NaN.

(** IEEE [a <= b]; every comparison with NaN is false. *)
Definition fle (a b : fnum) : bool :=
  match a, b with
  | NaN, _ => false
  | _, NaN => false
  | NInf, _ => true
  | _, PInf => true
  | PInf, _ => false
  | _, NInf => false
  | Fin x, Fin y => Qle_bool x y
  end.

(** IEEE [a >= b]. *)
Definition fge (a b : fnum) : bool := fle b a.

(** IEEE [a < b]. *)
Definition flt (a b : fnum) : bool :=
  match a, b with
  | NaN, _ => false
  | _, NaN => false
  | _, _ => negb (fle b a)
  end.

(** IEEE [a == b]. *)
Definition feq (a b : fnum) : bool := fle a b && fle b a.

(** numpy [np.isfinite] / [math.isfinite]. *)
Definition isfinite (a : fnum) : bool :=
  match a with Fin _ => true | _ => false end.

(** numpy [np.isnan]. *)
Definition isnan (a : fnum) : bool :=
  match a with NaN => true | _ => false end.

(** IEEE negation, addition, subtraction, absolute value. *)
Definition fneg (a : fnum) : fnum :=
  match a with Fin x => Fin (- x) | PInf => NInf | NInf => PInf | NaN => NaN end.

Definition fadd (a b : fnum) : fnum :=
  match a, b with
  | NaN, _ => NaN
  | _, NaN => NaN
  | PInf, NInf => NaN
  | NInf, PInf => NaN
  | PInf, _ => PInf
  | _, PInf => PInf
  | NInf, _ => NInf
  | _, NInf => NInf
  | Fin x, Fin y => Fin (x + y)
  end.

Definition fsub (a b : fnum) : fnum := fadd a (fneg b).

Definition fabs (a : fnum) : fnum :=
  match a with
  | Fin x => Fin (if Qle_bool 0 x then x else - x)
  | PInf => PInf | NInf => PInf | NaN => NaN
  end.

(** Python/numpy element access [l[i]]: negative indices count from the end;
    anything outside [-len, len) is an error ([None]). *)
Definition pyget {A} (l : list A) (i : Z) : option A :=
  let n := Z.of_nat (length l) in
  if ((0 <=? i) && (i <? n))%Z then nth_error l (Z.to_nat i)
  else if ((- n <=? i) && (i <? 0))%Z then nth_error l (Z.to_nat (n + i))
  else None.
