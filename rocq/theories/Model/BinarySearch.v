(** Model of cyclic_boosting/binning/_binary_search.py *)
From Coq Require Import ZArith QArith List Bool.
From Verif.Model Require Import Num.
Import ListNotations.
Local Open Scope Z_scope.

(** Result of a search loop: an index, or one of two failures that the
    theorems show never to happen. *)
Inductive sres : Type :=
| Found (i : Z)
| OutOfFuel
| IndexError.

(** The while-loop of [le] (_binary_search.py:35-41): narrow [il, ir) until
    [il >= ir - 1]. [//] is floor division, as [Z.div]. *)
Fixpoint le_loop (fuel : nat) (z : list fnum) (x : fnum) (il ir : Z) : sres :=
  if il <? ir - 1 then
    match fuel with
    | O => OutOfFuel
    | S fuel' =>
        let i := (il + ir) / 2 in
        match pyget z i with
        | None => IndexError
        | Some v => if fle v x then le_loop fuel' z x i ir
                    else le_loop fuel' z x il i
        end
    end
  else Found il.

(** [le] (_binary_search.py:10-41). *)
Definition le_search (z : list fnum) (x : fnum) (inclusive : bool) : sres :=
  let il := if inclusive then 0 else -1 in
  let ir := Z.of_nat (length z) in
  le_loop (S (length z)) z x il ir.

(** The while-loop shared by [ge] (_binary_search.py:76-82) and [ge_lim]
    (_binary_search.py:289-295). *)
Fixpoint ge_loop (fuel : nat) (z : list fnum) (x : fnum) (il ir : Z) : sres :=
  if il <? ir - 1 then
    match fuel with
    | O => OutOfFuel
    | S fuel' =>
        let i := (il + ir) / 2 in
        match pyget z i with
        | None => IndexError
        | Some v => if fge v x then ge_loop fuel' z x il i
                    else ge_loop fuel' z x i ir
        end
    end
  else Found ir.

(** [ge] (_binary_search.py:45-82). *)
Definition ge_search (z : list fnum) (x : fnum) (inclusive : bool) : sres :=
  let n := Z.of_nat (length z) in
  let il := -1 in
  let ir := if inclusive then n - 1 else n in
  ge_loop (S (length z)) z x il ir.

(** [ge_lim] (_binary_search.py:250-295). *)
Definition ge_lim (z : list fnum) (x : fnum) (inclusive : bool) (i_left i_right : Z) : sres :=
  let ir := if inclusive then i_right - 1 else i_right in
  let il := i_left - 1 in
  ge_loop (S (length z)) z x il ir.

(** [check_equal] (_binary_search.py:299-330) with [rtol = 0.0], the only
    value used by the callers: [abs(z1 - z2) <= atol + 0.0 * (abs(z1) + abs(z2))].
    For finite arguments the last summand is 0; for infinite ones it is
    NaN ([0.0 * inf]) and the comparison is false. *)
Definition check_equal (z1 z2 atol : fnum) : bool :=
  match z1, z2 with
  | Fin a, Fin b => fle (fabs (fsub z1 z2)) atol
  | _, _ => false
  end.

(** One element of [eq_multi] (_binary_search.py:117-122): [u[ind]] if the
    found element equals the searched one within epsilon, NaN otherwise.
    [z[ind]] with [ind = -1] reads the last element (Python indexing). *)
Definition eq_one {A} (z : list fnum) (x : fnum) (u : list A) (eps : fnum) : option (option A) :=
  match le_search z (fadd x eps) false with
  | Found ind =>
      match pyget z ind with
      | Some zi => if check_equal zi x eps
                   then match pyget u ind with
                        | Some ui => Some (Some ui)
                        | None => None
                        end
                   else Some None
      | None => None
      end
  | _ => None
  end.

(** Results of the vectorised functions: [RaiseLen] is the ValueError about
    inconsistent lengths, [Fail] an index error. *)
Inductive vres (A : Type) : Type :=
| Values (l : list A)
| RaiseLen
| Fail.
Arguments Values {A} l.
Arguments RaiseLen {A}.
Arguments Fail {A}.

(** Helper: apply a partial function to all elements. *)
Fixpoint map_opt {A B} (f : A -> option B) (l : list A) : option (list B) :=
  match l with
  | [] => Some []
  | x :: r => match f x, map_opt f r with
              | Some y, Some ys => Some (y :: ys)
              | _, _ => None
              end
  end.

(** [eq_multi] (_binary_search.py:86-122); [n_result] is the length of the
    result buffer; [None] elements stand for NaN. The result buffer may alias
    [z_searched]: element i is read before it is written and never again. *)
Definition eq_multi {A} (z xs : list fnum) (u : list A) (eps : fnum) (n_result : nat)
  : vres (option A) :=
  if negb (Nat.eqb n_result (length xs)) then RaiseLen
  else if negb (Nat.eqb (length z) (length u)) then RaiseLen
  else match map_opt (fun x => eq_one z x u eps) xs with
       | Some l => Values l
       | None => Fail
       end.

Definition found_index (r : sres) : option Z :=
  match r with Found i => Some i | _ => None end.

(** [ge_multi] (_binary_search.py:126-155). *)
Definition ge_multi (z xs : list fnum) (inclusive : bool) (n_result : nat) : vres Z :=
  if negb (Nat.eqb n_result (length xs)) then RaiseLen
  else match map_opt (fun x => found_index (ge_search z x inclusive)) xs with
       | Some l => Values l
       | None => Fail
       end.

(** [le_interp] (_binary_search.py:159-206) for arrays of finite numbers
    ([z], [u] : bin boundaries and cumulative probabilities).
    [Some None] is NaN, outer [None] an index error. *)
Definition le_interp (z : list Q) (x : fnum) (u : list Q) (out_left eps : Q)
  : option (option Q) :=
  let n := Z.of_nat (length z) in
  match x with
  | Fin xq =>
      if n =? 0 then Some None else
      match le_search (map Fin z) (fadd x (Fin eps)) false with
      | Found i =>
          match pyget z i, pyget u i with
          | Some z_found, Some u0 =>
              if i <? 0 then Some (Some out_left)
              else if (i <? n - 1) && negb (Qle_bool xq z_found)
                   then match pyget z (i + 1), pyget u (i + 1) with
                        | Some z1, Some u1 =>
                            Some (Some (u0 + (xq - z_found) / (z1 - z_found) * (u1 - u0))%Q)
                        | _, _ => None
                        end
                   else Some (Some u0)
          | _, _ => None
          end
      | _ => None
      end
  | _ => Some None
  end.
