(** Vocabulary for what a single feature group of the location regressor learns. *)
From Coq Require Import List Bool Reals.
From Verif.Model Require Import Num Train WholeFit.
From Verif.Spec Require Import CellSpec.
Import ListNotations.
Local Open Scope R_scope.

(** Sum over all rows. *)
Definition overall (v : sample -> R) (D : list sample) : R := cell_sum (fun _ => true) v D.
Definition mean_target (D : list sample) : R := overall (fun s => x_w s * x_y s) D / overall x_w D.

(** Weighted variance of all targets; 1 if it is hardly different from 0. *)
Definition target_variance (D : list sample) : R :=
  let v := overall (fun s => x_w s * (x_y s - mean_target D) ^ 2) D / overall x_w D in
  if Rle_dec v (1 / 1000000000) then 1 else v.

(** Mean target of a bin, and its variance: that of the targets of the bin, mixed with the
    variance of all targets, which counts like a row of weight 1. *)
Definition mean_of_cell (cell : sample -> bool) (D : list sample) : R :=
  cell_sum cell (fun s => x_w s * x_y s) D / cell_weight cell D.
Definition cell_variance (cell : sample -> bool) (D : list sample) : R :=
  (target_variance D + cell_sum cell (fun s => x_w s * (x_y s - mean_of_cell cell D) ^ 2) D) / (1 + cell_weight cell D).

(** How reluctantly a bin learns: above 1, and close to 1 for a bin of large weight and
    small variance. *)
Definition reluctance (cell : sample -> bool) (D : list sample) : R :=
  1 + 1 / 100 * (cell_variance cell D / cell_weight cell D).

(** [same s] are the rows in the bin of [s]. *)
Definition bins_of (D : list sample) (same : sample -> sample -> bool) : Prop :=
  forall s, In s D -> cell_of D s (same s).

(** What the predictions of the rows of a bin keep too much of the 0.001 by which the
    baseline exceeds the mean target: a share according to the reluctance. *)
Definition mean_reluctance (same : sample -> sample -> bool) (D : list sample) : R :=
  overall (fun s => x_w s * reluctance (same s) D) D / overall x_w D.
Definition excess (same : sample -> sample -> bool) (D : list sample) (s : sample) : R :=
  1 / 1000 * (reluctance (same s) D / mean_reluctance same D).

(** The targets are not almost constant. *)
Definition varied (same : sample -> sample -> bool) (D : list sample) : Prop :=
  26 * overall (fun s => x_w s * excess same D s ^ 2) D <= overall (fun s => x_w s * (x_y s - (mean_target D + 1 / 1000)) ^ 2) D.

(** Weighted sum of the predictions for the rows of [cell]. *)
Definition cell_predictions (cell : sample -> bool) (D : list sample) (predictions : list R) : R :=
  sumR (map2 (fun s p => if cell s then x_w s * p else 0) D predictions).
