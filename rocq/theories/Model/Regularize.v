(** Model of the regularisation helpers and the linear regression of
    cyclic_boosting/utils.py and of smoothing/extrapolate.py. Numbers are reals,
    [None] in place of a number is NaN; [None] in place of a list is the
    ValueError on inputs of different shape. *)
From Coq Require Import List Bool Reals.
From Verif.Model Require Import Train.
Import ListNotations.
Local Open Scope R_scope.

(** [np.allclose(x, b)] for a scalar [b], default tolerances. *)
Definition isclose (a b : R) : bool := Rleb (Rabs (a - b)) (1 / 100000000 + 1 / 100000 * Rabs b).
Definition allclose (x : list R) (b : R) : bool := forallb (fun v => isclose v b) x.

(** [np.sign]. *)
Definition np_sign (a : R) : R := if Rltb 0 a then 1 else if Rltb a 0 then -1 else 0.

(** [regularize_to_prior_expectation] (utils.py:713-758) for one value. A zero
    uncertainty makes the significance infinite and the product NaN, except at
    the prior itself, where the significance is NaN and not above the threshold. *)
Definition regularize_to_prior_expectation (value uncertainty prior threshold : R) : option R :=
  if Reqb uncertainty 0 then (if Reqb value prior then Some prior else None)
  else
    let significance := (value - prior) / uncertainty in
    Some (prior + uncertainty *
      (if Rltb threshold (Rabs significance)
       then np_sign significance * sqrt (Rabs (significance ^ 2 - threshold ^ 2))
       else 0)).

(** [regularize_to_error_weighted_mean] (utils.py:761-840). One zero uncertainty
    makes the weight sum infinite and the quotients NaN. *)
Definition regularize_to_error_weighted_mean (values uncertainties : list R) (prior_prediction : option R)
  : option (list (option R)) :=
  if negb (Nat.eqb (length values) (length uncertainties)) then None
  else
    let unchanged := Some (map Some values) in
    let regularized x_mean :=
      if existsb (fun u => Reqb u 0) uncertainties then Some (map (fun _ => None) values)
      else
        let wx := map (fun u => 1 / (u * u)) uncertainties in
        let sum_wx := sumR wx in
        let x_mean := x_mean wx sum_wx in
        let wx_incl := 1 / (sumR (map2 (fun w x => w * (x - x_mean) ^ 2) wx values) / sum_wx) in
        Some (map2 (fun w x => Some ((w * x + wx_incl * x_mean) / (w + wx_incl))) wx values) in
    match prior_prediction with
    | None =>
        match values with
        | [] | [_] => unchanged
        | x0 :: _ =>
            if allclose values x0 then unchanged
            else regularized (fun wx sum_wx => sumR (map2 Rmult wx values) / sum_wx)
        end
    | Some p =>
        match values with
        | [] => unchanged
        | _ => if allclose values p then unchanged else regularized (fun _ _ => p)
        end
    end.

(** Entry [i] of [np.convolve(v, np.ones(window), "same")] for [window] not above
    the length of [v]. *)
Definition convolve_same (window : nat) (v : list R) (i : nat) : R :=
  sumR (map (fun j => if Nat.leb i (j + window / 2) && Nat.ltb (j + window / 2) (i + window)
                      then nth j v 0 else 0) (seq 0 (length v))).

(** [regularize_to_error_weighted_mean_neighbors] (utils.py:843-885). A window
    without weight makes 0/0, a window without spread an infinite weight of the
    mean; both give NaN. For a window longer than the data the shapes do not fit. *)
Definition regularize_neighbors (window : nat) (values uncertainties : list R) : option (list (option R)) :=
  if negb (Nat.eqb (length values) (length uncertainties)) then None
  else if Nat.ltb (length values) 3 then regularize_to_error_weighted_mean values uncertainties None
  else if Nat.ltb (length values) window then None
  else
    let wx := map (fun u => if Rltb 0 u then 1 / (u * u) else 0) uncertainties in
    let regularized i :=
      let sum_wx := convolve_same window wx i in
      if Reqb sum_wx 0 then None
      else
        let x_mean := convolve_same window (map2 Rmult wx values) i / sum_wx in
        let spread := convolve_same window (map2 (fun w x => w * (x - x_mean) ^ 2) wx values) i in
        if Reqb spread 0 then None
        else
          let wx_incl := sum_wx / spread in
          Some ((nth i wx 0 * nth i values 0 + wx_incl * x_mean) / (nth i wx 0 + wx_incl)) in
    Some (map regularized (seq 0 (length values))).

(** Two-dimensional tables are lists of rows. *)
Definition table := list (list R).
Definition row_sums (t : table) : list R := map sumR t.
Definition col_sums (t : table) : list R :=
  map (fun j => sumR (map (fun r => nth j r 0) t)) (seq 0 (length (hd [] t))).
Definition weighted (t u : table) : table := map2 (map2 Rmult) t u.

(** The loop of [neutralize_one_dim_influence] (utils.py:906-929), for row and
    column weights that do not vanish; [None]: out of fuel. The number of rounds is
    returned, too. *)
Fixpoint neutralize_loop (fuel : nat) (u : table) (T0 T1 : list R) (values : table) (S0 : list R)
    (deviation : R) (iteration : nat) : option (table * nat) :=
  match fuel with
  | O => None
  | S fuel' =>
      if Rltb (1 / 100) deviation && Nat.ltb iteration 4 then
        let values := map2 (fun r c => map (fun v => v - c) r) values (map2 Rdiv S0 T0) in
        let S1 := col_sums (weighted values u) in
        let values := map (fun r => map2 Rminus r (map2 Rdiv S1 T1)) values in
        let S0 := row_sums (weighted values u) in
        let S1 := col_sums (weighted values u) in
        let deviation := sumR (map Rabs S0) + sumR (map Rabs S1) in
        neutralize_loop fuel' u T0 T1 values S0 deviation (iteration + 1)
      else Some (values, iteration)
  end.

(** [neutralize_one_dim_influence] (utils.py:888-930). *)
Definition neutralize_one_dim_influence (fuel : nat) (values u : table) : option (table * nat) :=
  neutralize_loop fuel u (row_sums u) (col_sums u) values (row_sums (weighted values u)) 100 0.

(** [linear_regression] (utils.py:992-1020); [None]: vanishing determinant. *)
Definition linear_regression (x y w : list R) : option (R * R) :=
  let s_w := sumR w in
  let s_wx := sumR (map2 Rmult w x) in
  let s_wxx := sumR (map2 Rmult (map (fun v => v * v) x) w) in
  let s_wy := sumR (map2 Rmult w y) in
  let s_wxy := sumR (map2 Rmult (map2 Rmult w x) y) in
  let det := s_w * s_wxx - s_wx * s_wx in
  if Reqb det 0 then None
  else Some ((s_wxx * s_wy - s_wx * s_wxy) / det, (s_w * s_wxy - s_wx * s_wy) / det).

(** [LinearExtrapolator] (smoothing/extrapolate.py:109-133). *)
Definition extrapolator_fit (epsilon : R) (x u y : list R) : option (R * R) :=
  linear_regression x y (map (fun s => 1 / (s * s + epsilon)) u).
Definition extrapolator_predict (c : R * R) (x : R) : R := fst c + x * snd c.
