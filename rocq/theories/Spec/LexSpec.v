(** Index tuples, their lexicographic order, and numeric rows. *)
From Coq Require Import ZArith QArith List Bool.
From Verif.Model Require Import Num.
Import ListNotations.
Local Open Scope Z_scope.

(** A shape: every dimension has at least one bin. *)
Definition shape (n : list Z) : Prop := Forall (fun k => 0 < k) n.

(** A tuple of bin numbers inside the shape. *)
Definition valid_tuple (n t : list Z) : Prop := Forall2 (fun k i => 0 <= i < k) n t.

(** Number of tuples of a shape. *)
Fixpoint size (n : list Z) : Z := match n with [] => 1 | k :: r => k * size r end.

(** Lexicographic order of tuples of the same length. *)
Inductive lex_lt : list Z -> list Z -> Prop :=
| lex_here a b s t : a < b -> length s = length t -> lex_lt (a :: s) (b :: t)
| lex_there a s t : lex_lt s t -> lex_lt (a :: s) (a :: t).

(** Position of a tuple in the lexicographic order: its mixed-radix number. *)
Fixpoint number (n t : list Z) : Z :=
  match n, t with
  | _ :: ns, i :: ts => i * size ns + number ns ts
  | _, _ => 0
  end.

(** The row of floats holding the tuple (any representation of the integers). *)
Definition holds_tuple (row : list fnum) (t : list Z) : Prop :=
  Forall2 (fun x k => exists q, x = Fin q /\ (q == inject_Z k)%Q) row t.

(** A row that is not a tuple of the shape: an entry is missing, infinite,
    negative or too large. *)
Definition bad_entry (x : fnum) (k : Z) : Prop :=
  isfinite x = false \/ flt x (Fin 0) = true \/ fle (Fin (inject_Z k)) x = true.
Definition invalid_row (n : list Z) (row : list fnum) : Prop :=
  exists i x k, nth_error row i = Some x /\ nth_error n i = Some k /\ bad_entry x k.

(** A bin is unseen if its training weight is zero or was never recorded. *)
Definition unseen (wx : list Q) (k : Z) : Prop :=
  match nth_error wx (Z.to_nat k) with Some w => (w == 0)%Q | None => True end.

(** The weights of all bins, with or without the missing bin at the end. *)
Definition weights_for (n : list Z) (wx : list Q) : Prop :=
  Z.of_nat (length wx) = size n \/ Z.of_nat (length wx) = size n + 1.

(** The row has an entry that is missing, infinite or negative. *)
Definition missing_entry (row : list fnum) : Prop :=
  exists x, In x row /\ (isfinite x = false \/ flt x (Fin 0) = true).
