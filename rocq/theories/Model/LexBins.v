(** Model of the multi-dimensional bin numbering in cyclic_boosting/utils.py *)
From Coq Require Import ZArith QArith Qround List Bool.
From Verif.Model Require Import Num.
Import ListNotations.
Local Open Scope Z_scope.

(** [bin_steps] (utils.py:260-294): entry M is 1, entry m is the product of the
    numbers of bins from dimension m on. The loop runs from the last slot to
    the first; the final multiplication by [n_bins[-1]] is discarded. *)
Fixpoint bin_steps (n_bins : list Z) : list Z :=
  match n_bins with
  | [] => [1]
  | n :: r => let s := bin_steps r in (n * hd 1 s) :: s
  end.

(** [np.product(n_bins)] *)
Definition prodZ (l : list Z) : Z := fold_right Z.mul 1 l.

(** One column of [arange_multi] (utils.py:346-354): blocks of [step] equal
    numbers, counting cyclically up to [stop]; [blocks] is the number of
    iterations of [range(0, total_bin_steps, bin_steps_m)]. *)
Fixpoint column_blocks (blocks : nat) (stop step binno : Z) : list Z :=
  match blocks with
  | O => []
  | S b => repeat binno (Z.to_nat step) ++
           column_blocks b stop step (if stop <=? binno + 1 then 0 else binno + 1)
  end.

(** Number of elements of [range(0, total, step)] for positive [step]. *)
Definition range_length (total step : Z) : nat := Z.to_nat ((total + step - 1) / step).

Fixpoint arange_columns (total : Z) (stops steps : list Z) : list (list Z) :=
  match stops, steps with
  | n :: r, s :: rs => column_blocks (range_length total s) n s 0 :: arange_columns total r rs
  | _, _ => []
  end.

(** [arange_multi] (utils.py:297-356), as the list of its rows. For shapes with
    an empty dimension the loop over a zero step raises in Python; the only
    caller (features.py:136-140) does not call it then. *)
Definition arange_multi (stops : list Z) : list (list Z) :=
  let steps := bin_steps stops in
  let total := hd 1 steps in
  let cols := arange_columns total stops (tl steps) in
  map (fun i => map (fun c => nth i c 0) cols) (seq 0 (Z.to_nat total)).

(** [slice_finite_semi_positive] (utils.py:111-143) for one row. *)
Definition nonneg (x : fnum) : bool := fle (Fin 0) x.
Definition row_finite_semi_positive (row : list fnum) : bool :=
  forallb isfinite row && forallb nonneg row.

(** Floor of a finite number (0 for the others, which are never used). *)
Definition floor_of (x : fnum) : Z := match x with Fin q => Qfloor q | _ => 0 end.

(** Bins per dimension determined from the data (utils.py:230-235): per column
    the maximum over the usable rows, converted to int, plus one; zeros if there
    is no usable row. [astype(np.int64)] truncates; here all values are >= 0. *)
Fixpoint col_max (a b : list fnum) : list fnum :=
  match a, b with
  | x :: r, y :: s => (if fle x y then y else x) :: col_max r s
  | _, _ => []
  end.
Definition data_n_bins (M : nat) (rows : list (list fnum)) : list Z :=
  match filter row_finite_semi_positive rows with
  | [] => repeat 0 M
  | r :: rs => map (fun x => floor_of x + 1) (fold_left col_max rs r)
  end.

(** Validity mask of a row (utils.py:240-241). *)
Fixpoint in_bins (row : list fnum) (n_bins : list Z) : bool :=
  match row, n_bins with
  | x :: r, n :: ns => nonneg x && flt x (Fin (inject_Z n)) && in_bins r ns
  | _, _ => true
  end.
Definition row_valid (n_bins : list Z) (row : list fnum) : bool :=
  forallb isfinite row && in_bins row n_bins.

(** [np.dot(np.floor(row), binsteps[1:])] *)
Fixpoint dot (a b : list Z) : Z :=
  match a, b with
  | x :: r, y :: s => x * y + dot r s
  | _, _ => 0
  end.
Definition lex_value (n_bins : list Z) (row : list fnum) : Z :=
  dot (map floor_of row) (tl (bin_steps n_bins)).

(** [multidim_binnos_to_lexicographic_binnos] (utils.py:227-257) on [N] rows of
    [M] numbers; the optional [binsteps] argument is not used by any caller. *)
Definition lexicographic_binnos (M : nat) (rows : list (list fnum)) (n_bins : option (list Z))
  : list Z * list Z :=
  let n := match n_bins with Some n => n | None => data_n_bins M rows end in
  let fill := if existsb (row_valid n) rows then prodZ n else 0 in
  (map (fun row => if row_valid n row then lex_value n row else fill) rows, n).

(** numpy's [np.round] to an integer, half to even, of a finite number. *)
Definition np_round (x : fnum) : Z :=
  match x with
  | Fin q => let f := Qfloor (q + (1#2)) in
             if Qeq_bool (q + (1#2)) (inject_Z f) && Z.odd f then f - 1 else f
  | _ => 0
  end.

(** [not_seen_events] (utils.py:27-76). [wx] are the weight sums, [rows] has
    [M] columns. [None] is an IndexError. Conversion of NaN and infinities to
    int is not used: such rows are masked. *)
Fixpoint get_all (l : list bool) (idx : list Z) : option (list bool) :=
  match idx with
  | [] => Some []
  | i :: r => match pyget l i, get_all l r with
              | Some b, Some bs => Some (b :: bs)
              | _, _ => None
              end
  end.
Definition not_seen_events (M : nat) (rows : list (list fnum)) (wx : list Q) (n_bins : list Z)
  : option (list bool) :=
  let max_lex := prodZ n_bins in
  let not_seen0 := map (fun w => Qeq_bool w 0) wx in
  let not_seen := if Z.of_nat (length not_seen0) =? max_lex then not_seen0 ++ [true] else not_seen0 in
  let numbers := if Nat.ltb 1 M
                 then fst (lexicographic_binnos M rows (Some n_bins))
                 else map (fun row => np_round (hd NaN row)) rows in
  let idx := map (fun p => if negb (row_finite_semi_positive (fst p)) || (max_lex <? snd p)
                           then max_lex else snd p)
                 (combine rows numbers) in
  get_all not_seen idx.
