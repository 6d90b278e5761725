(** Sections and groups of training rows. *)
From Coq Require Import ZArith QArith Qreals List Bool Reals.
From Verif.Model Require Import Num LexBins Train MetaSmoothers.
From Verif.Spec Require Import LexSpec.
Import ListNotations.

(** Weights of the training rows. *)
Definition weights_of (X : list srow) : list R := map (fun r => Q2R (r_w r)) X.

(** The training rows with their targets that satisfy [p]. *)
Definition part_rows {A} (p : A -> bool) (X : list A) (y : list R) : list A :=
  map fst (filter (fun r => p (fst r)) (combine X y)).
Definition part_targets {A} (p : A -> bool) (X : list A) (y : list R) : list R :=
  map snd (filter (fun r => p (fst r)) (combine X y)).

(** The smoother predicts each row on its own: [f]. *)
Definition rowwise (s : smoothing_alg) (f : state s -> list fnum -> option R) : Prop :=
  forall st rows, predict s st rows = map (f st) rows.

(** The smoother does not write to the rows it predicts. *)
Definition leaves_rows (s : smoothing_alg) : Prop := forall st rows, rows_after s st rows = rows.

(** A row belongs to the lower section if its first coordinate is at most the split
    point, up to [epsilon]. *)
Definition lower_row (split epsilon : Q) (row : list fnum) : bool :=
  match row with
  | Fin q :: _ => Qle_bool q (split + epsilon)
  | NInf :: _ => true
  | _ => false
  end.

(** Result for a row from the part [p] of the training data, NaN if the part is empty. *)
Definition part_result {A} (s : smoothing_alg) (f : state s -> list fnum -> option R) (rows_of : A -> srow)
    (p : A -> bool) (X : list A) (y : list R) (row : list fnum) : option R :=
  match part_rows p X y with
  | [] => None
  | _ => f (fit s (map rows_of (part_rows p X y)) (part_targets p X y)) row
  end.

(** Training rows of a group. *)
Definition in_group (key : list Z) (r : grow) : bool := if list_eq_dec Z.eq_dec (g_key r) key then true else false.
Definition weight_of_group (key : list Z) (X : list grow) : Q :=
  fold_right (fun r a => if in_group key r then r_w (g_row r) + a else a)%Q 0%Q X.

(** The training rows are the centres of all bins of the shape [n], in order. *)
Definition bins_of (n : list Z) (X : list srow) : Prop :=
  Forall2 (fun r t => holds_tuple (r_x r) t) X (arange_multi n).

(** All coordinates are finite and lie between 0 and half a bin above the last
    bin. *)
Definition within_bins (n : list Z) (row : list fnum) : Prop :=
  Forall2 (fun x k => exists q, x = Fin q /\ (0 <= q <= inject_Z k - (1 # 2))%Q) row n.
Definition finite_row (row : list fnum) : Prop := forall x, In x row -> exists q, x = Fin q.
