(** Model of smoothing/orthofit.py and [OrthogonalPolynomialSmoother]
    (smoothing/onedim.py:235-264). Floats are reals. *)
From Coq Require Import ZArith QArith Qreals List Bool Reals.
From Verif.Model Require Import Num Train MetaSmoothers.
Import ListNotations.
Local Open Scope R_scope.

Definition N_PARAMETERS : nat := 21.

(** The arrays x, y and weights, of the same length. *)
Record point := { p_x : R; p_y : R; p_w : R }.

(** A row of the array of parameters (columns 0 to 4). *)
Record orow := { o_alpha : R; o_beta : R; o_gamma : R; o_delta : R; o_sum : R }.

(** orthofit.py:45-46 and 79-80. *)
Definition inv_sqrt (g : R) : R := if Reqb g 0 then g else 1 / sqrt g.

(** Row 0 (orthofit.py:33-62). The later overwriting of its columns 0 and 1
    (93-94, 143-145) is left out: nothing reads them. *)
Definition first_row (pts : list point) : orow :=
  let gamma := inv_sqrt (sumR (map p_w pts)) in
  let delta := sumR (map (fun p => p_w p * p_y p) pts) * gamma in
  {| o_alpha := 0; o_beta := 0; o_gamma := gamma; o_delta := delta;
     o_sum := sumR (map (fun p => p_w p * (p_y p - gamma * delta) * (p_y p - gamma * delta)) pts) |}.

(** One round of the loop (orthofit.py:65-92). The two rows of [scratch] are [latest]
    and [older], which change places in each round; returns the row of parameters and
    the new [latest]. *)
Definition next_row (pts : list point) (latest older : list R) (sum_squared : R) : orow * list R :=
  let alpha := sumR (map2 (fun p l => p_w p * p_x p * l * l) pts latest) in
  let beta := sumR (map2 (fun p s => p_w p * p_x p * snd s * fst s) pts (combine latest older)) in
  let raw := map2 (fun p s => (p_x p - alpha) * fst s - beta * snd s) pts (combine latest older) in
  let gamma := inv_sqrt (sumR (map2 (fun p v => p_w p * v * v) pts raw)) in
  let new := map (fun v => v * gamma) raw in
  let delta := sumR (map2 (fun p v => p_w p * v * p_y p) pts new) in
  ({| o_alpha := alpha; o_beta := beta; o_gamma := gamma; o_delta := delta;
      o_sum := Rmax 0 (sum_squared - delta * delta) |}, new).

Fixpoint higher_rows (rounds : nat) (pts : list point) (latest older : list R) (sum_squared : R) : list orow :=
  match rounds with
  | O => []
  | S r => let (row, new) := next_row pts latest older sum_squared in
           row :: higher_rows r pts new latest (o_sum row)
  end.

(** [fit_orthogonal_poly_] (orthofit.py:25-95); the number of rows is the returned
    [n_degrees]. *)
Definition fit_orthogonal_poly (pts : list point) : list orow :=
  let n_degrees := Nat.min N_PARAMETERS (length pts) in
  let row := first_row pts in
  row :: higher_rows (n_degrees - 1) pts (map (fun _ => o_gamma row) pts) (map (fun _ => 0) pts) (o_sum row).

(** [significant_parameters_] (orthofit.py:98-119); the loop over the rows from
    index [k], with the entry [previous] of the row before. *)
Fixpoint significant_loop (rows : list orow) (previous : R) (k npp n_points result : nat) : nat :=
  match rows with
  | [] => result
  | row :: rest =>
      let result := S k in
      if Rltb (o_sum row) (INR n_points - INR (S k)) then result
      else
        let npp := if Rltb (o_delta row ^ 2) (384 / 100) then S npp else npp in
        let npp := if Rltb (o_delta row ^ 2 + previous ^ 2) 6 then S npp else npp in
        if Nat.leb 4 npp then result
        else significant_loop rest (o_delta row) (S k) npp n_points result
  end.
Definition significant_parameters (rows : list orow) (n_points : nat) : nat :=
  match rows with
  | _ :: r1 :: rest => significant_loop rest (o_delta r1) 2 0 n_points (length rows)
  | _ => length rows
  end.

(** [custom_clip] (orthofit.py:122-129) and [reduce_to_signifcant_parameters]
    (orthofit.py:132-147); [int(n * 0.2)] is the integer part of n / 5. *)
Definition custom_clip (value lower upper : nat) : nat :=
  if Nat.leb lower value && Nat.leb value upper then value
  else if Nat.ltb value lower then lower else upper.
Definition reduce_parameters (significant n_degrees n_points : nat) : nat :=
  let n := Nat.min n_degrees significant in
  if Nat.eqb n n_points
  then if Nat.ltb 2 n_points then custom_clip (n_points / 5) 2 N_PARAMETERS else 1
  else n.

(** [cy_orthogonal_poly_fit_equidistant] (orthofit.py:10-22). *)
Definition weighted_points (xs ys errors : list R) : list point :=
  map2 (fun x ye => {| p_x := x; p_y := fst ye; p_w := 1 / (snd ye * snd ye) |}) xs (combine ys errors).
Definition ortho_fit (pts : list point) : list orow * nat :=
  let rows := fit_orthogonal_poly pts in
  let significant := significant_parameters rows (length pts) in
  (rows, reduce_parameters significant (length rows) (length pts)).

(** [cy_apply_orthogonal_poly_fit_equidistant] (orthofit.py:150-167) at one point. *)
Fixpoint apply_rows (rows : list orow) (x latest older y_estimate : R) : R :=
  match rows with
  | [] => y_estimate
  | row :: rest =>
      let new := ((x - o_alpha row) * latest - o_beta row * older) * o_gamma row in
      apply_rows rest x new latest (y_estimate + o_delta row * new)
  end.
Definition ortho_apply (rows : list orow) (n_degrees : nat) (x : R) : R :=
  match rows with
  | [] => 0
  | r0 :: rest => apply_rows (firstn (n_degrees - 1) rest) x (o_gamma r0) 0 (o_gamma r0 * o_delta r0)
  end.

(** [OrthogonalPolynomialSmoother] (onedim.py:235-264). The coordinates of the
    training rows are finite. The clamping in [predict] (260-261) writes to [x], which
    is the array of rows itself if it has one column only (ascontiguousarray makes no
    copy). *)
Definition fmin (a b : Q) : Q := if Qle_bool a b then a else b.
Definition first_coordinate (row : list fnum) : Q := fin_of (hd NaN row).
Definition clamp (lo hi : Q) (x : fnum) : fnum :=
  match x with
  | Fin q => if negb (Qle_bool lo q) then Fin lo else if negb (Qle_bool q hi) then Fin hi else Fin q
  | PInf => Fin hi
  | NInf => Fin lo
  | NaN => NaN
  end.
Definition orthogonal_polynomial : smoothing_alg := {|
  state := (Q * Q) * (list orow * nat);
  fit := fun X y =>
    let x := map (fun r => first_coordinate (r_x r)) X in
    ((fold_left fmin (tl x) (hd 0%Q x), fold_left fmax (tl x) (hd 0%Q x)),
     ortho_fit (weighted_points (map Q2R x) y (map r_u X)));
  predict := fun st rows =>
    map (fun row => match clamp (fst (fst st)) (snd (fst st)) (hd NaN row) with
                    | Fin q => Some (ortho_apply (fst (snd st)) (snd (snd st)) (Q2R q))
                    | _ => None
                    end) rows;
  rows_after := fun st rows =>
    if forallb (fun row => Nat.eqb (length row) 1) rows
    then map (fun row => [clamp (fst (fst st)) (snd (fst st)) (hd NaN row)]) rows
    else rows
|}.
