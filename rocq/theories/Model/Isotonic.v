(** Model of the isotonic smoother (smoothing/onedim.py:717-762), of the rows that a
    one-dimensional feature group hands to its smoother (features.py:193-207), and of
    the smoothers of common_smoothers.py as objects that can be fitted. *)
From Coq Require Import ZArith QArith Qreals List Bool Reals.
From Verif.Model Require Import Num Train SmootherChoice MetaSmoothers.
Import ListNotations.
Local Open Scope R_scope.

(** Weights of the bins (onedim.py:752-754). *)
Definition isotonic_weight (sigma : R) : R :=
  let s := if Rltb 0 sigma then sigma else 10 ^ 12 in 1 / (s * s).

(** [sklearn.isotonic.isotonic_regression] for positive weights, which is not part of
    the repository: pool adjacent violators. A block is (weight, mean, number of
    entries), the last block comes first. *)
Fixpoint push (w m : R) (c : nat) (blocks : list (R * R * nat)) : list (R * R * nat) :=
  match blocks with
  | (w', m', c') :: r =>
      if Rleb m m' then push (w' + w) ((w' * m' + w * m) / (w' + w)) (c' + c) r
      else (w, m, c) :: blocks
  | [] => [(w, m, c)]
  end.
Definition expand (blocks : list (R * R * nat)) : list R :=
  flat_map (fun b => repeat (snd (fst b)) (snd b)) (rev blocks).
Definition pool (w y : list R) : list R :=
  expand (fold_left (fun blocks d => push (fst d) (snd d) 1 blocks) (combine w y) []).

(** Ranks from 0 on, equal values share their mean rank ([scipy.stats.rankdata]). *)
Definition count (p : R -> bool) (l : list R) : R := INR (length (filter p l)).
Definition rank (l : list R) (v : R) : R := count (fun u => Rltb u v) l + (count (Reqb v) l - 1) / 2.

(** [sklearn.isotonic.check_increasing]: Spearman's correlation is at least zero; the
    correlation of constant values is NaN. *)
Definition check_increasing (x y : list R) : bool :=
  let middle := (INR (length y) - 1) / 2 in
  existsb (fun v => negb (Reqb v (hd 0 y))) y &&
  Rleb 0 (sumR (map2 (fun a b => (rank x a - middle) * (rank y b - middle)) x y)).

(** [sklearn.isotonic.IsotonicRegression.fit] for rows in increasing order of x
    without repetitions, as the bins of a feature are (features.py:203). *)
Definition direction_of (d : direction) (x y : list R) : bool :=
  match d with
  | AutoDirection => check_increasing x y
  | IncreasingOnly => true
  | DecreasingOnly => false
  end.
Definition isotonic_values (increasing : bool) (w y : list R) : list R :=
  if increasing then pool w y else rev (pool (rev w) (rev y)).

(** Prediction with out_of_bounds="clip": linear between the rows. *)
Fixpoint between (x0 : Q) (y0 : R) (pts : list (Q * R)) (x : Q) : R :=
  match pts with
  | [] => y0
  | (x1, y1) :: r =>
      if Qle_bool x x1 then y0 + (y1 - y0) * (Q2R (x - x0) / Q2R (x1 - x0)) else between x1 y1 r x
  end.
Definition interpolate (pts : list (Q * R)) (x : Q) : option R :=
  match pts with
  | [] => None
  | (x0, y0) :: r => Some (if Qle_bool x x0 then y0 else between x0 y0 r x)
  end.

(** [IsotonicRegressor] (onedim.py:746-762). Rows that are not finite raise an
    exception in sklearn; here they are NaN. *)
Definition abscissa (r : srow) : Q := fin_of (hd NaN (r_x r)).
Definition isotonic (d : direction) : smoothing_alg := {|
  state := list (Q * R);
  fit := fun X y =>
    let x := map abscissa X in
    combine x (isotonic_values (direction_of d (map Q2R x) y) (map (fun r => isotonic_weight (r_u r)) X) y);
  predict := fun st rows => map (fun row => match row with Fin q :: _ => interpolate st q | _ => None end) rows;
  rows_after := fun _ rows => rows
|}.

(** The smoothers of common_smoothers.py for one column: the isotonic ones inside the
    meta smoothers; the others are given by [other]. *)
Fixpoint smoother_alg (other : smoother -> smoothing_alg) (s : smoother) : smoothing_alg :=
  match s with
  | Isotonic d => isotonic d
  | Normalized s => normalization (smoother_alg other s)
  | Cut s t => regression_type_smoother 1 t (smoother_alg other s)
  | NormalizedCut s t => normalization_regression_type 1 t (smoother_alg other s)
  | s => other s
  end.

(** [_get_data_for_smoother] (features.py:193-207) for one dimension, without the
    last row: bin number, weight and uncertainty. *)
Definition bin_row (k : nat) : list fnum := [Fin (inject_Z (Z.of_nat k))].
Definition smoother_rows (n : nat) (weights : list Q) (uncertainties : list R) : list srow :=
  map (fun k => {| r_x := bin_row k; r_w := nth k weights 0%Q; r_u := nth k uncertainties 0 |}) (seq 0 n).

(** Fit and prediction of the smoother of a one-dimensional group in the training
    loop (features.py:250-254, base.py:116-126): the argument [smooth] of
    Train.v. [uncertainties]: of the estimates in the iteration. *)
Definition fitted_smoother (s : smoothing_alg) (n : nat) (weights : list Q)
    (uncertainties : nat -> preds -> list R) (it : nat) (p : preds) (values : list R) (k : nat) : option R :=
  let X := smoother_rows n weights (uncertainties it p) in
  nth k (predict s (fit s X values) (map bin_row (seq 0 n))) None.
