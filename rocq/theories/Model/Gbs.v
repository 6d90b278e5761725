(** Model of the background subtraction regressor (GBSregression.py). Numbers are
    reals; [None] is a float that is not finite. *)
From Coq Require Import List Bool Reals.
From Verif.Model Require Import Num LexBins Train Predict Link Estimators.
Import ListNotations.
Local Open Scope R_scope.

(** [calc_parameters] (GBSregression.py:71-91): estimate and uncertainty of each
    bin; [None]: division by zero or the root of a negative number. *)
Definition gbs_bin (sum_n sum_d sum_nd sum_n2 sum_d2 : R) : option (R * R) :=
  let sum_d := sum_d + 1 in
  let sum_d2 := sum_d2 + 1 ^ 2 in
  if Reqb sum_d 0 then None
  else
    let summand := sum_n / sum_d in
    let variance_summand := (sum_d ^ 2 * sum_n2 - 2 * sum_n * sum_d * sum_nd + sum_n ^ 2 * sum_d2) / sum_d ^ 4 in
    if Rltb variance_summand 0 then None else Some (summand, sqrt variance_summand).
Definition gbs_parameters (regalpha : R) (lex : list nat) (n_bins : nat) (y weights prediction : list R)
  : list (option (R * R)) :=
  let n := map2 Rmult (map2 Rminus y prediction) weights in
  let d := map (fun w => w * (1 + regalpha)) weights in
  map (fun k => gbs_bin (bin_total lex n k) (bin_total lex d k) (bin_total lex (map2 Rmult n d) k)
                        (bin_total lex (map2 Rmult n n) k) (bin_total lex (map2 Rmult d d) k)) (seq 0 n_bins).

(** [_init_global_scale] (GBSregression.py:96-99). *)
Definition gbs_global_scale (y weights : list R) : option R :=
  if Reqb (sumR weights) 0 then None else Some (sumR (map2 Rmult y weights) / sumR weights).

(** [loss] (GBSregression.py:101-104). *)
Definition gbs_loss (prediction y weights : list R) : option R :=
  let wvisitsum := sumR (map2 Rmult (map (fun v => if Reqb v 0 then 0 else 1) y) weights) in
  if Reqb wvisitsum 0 then None
  else Some (sumR (map2 Rmult weights (map2 (fun p v => (p - v) ^ 2) prediction y)) / wvisitsum).
