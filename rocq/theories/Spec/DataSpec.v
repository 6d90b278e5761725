(** Vocabulary for properties of whole trainings: what it means that two sets of
    training rows say the same. *)
From Coq Require Import List Bool Reals Permutation.
From Verif.Model Require Import Num LexBins Train Predict WholeFit.
Import ListNotations.
Local Open Scope R_scope.

(** Every row has one bin number for each column of a feature group. *)
Definition well_formed (gs : list group) (D : list sample) : Prop :=
  forall s i g, In s D -> nth_error gs i = Some g -> length (x_bins s i) = g_dim g.

(** The same row with another weight; [m] copies of it with weight one. *)
Definition with_weight (s : sample) (v : R) : sample :=
  {| x_bins := x_bins s; x_prior := x_prior s; x_y := x_y s; x_w := v |}.
Definition copies (s : sample) (m : nat) : list sample := repeat (with_weight s 1) m.

(** Two data sets that differ in the order of rows, in how the weight of a row is
    divided among copies of it, and in rows of weight zero whose bins occur in
    other rows. *)
Inductive same_content : list sample -> list sample -> Prop :=
| sc_order D D' : Permutation D D' -> same_content D D'
| sc_split s u v D : x_w s = u + v -> same_content (s :: D) (with_weight s u :: with_weight s v :: D)
| sc_zero s D : x_w s = 0 -> (forall i, In (x_bins s i) (map (fun t => x_bins t i) D)) -> same_content (s :: D) D
| sc_sym D D' : same_content D D' -> same_content D' D
| sc_trans D D' D'' : same_content D D' -> same_content D' D'' -> same_content D D''.

(** Estimators whose bin estimates and uncertainties are sums over the rows with
    the weights as coefficients. *)
Definition linear_kind (k : kind) : bool :=
  match k with NBinomRegressor _ _ | PoissonRegressor | BinaryClassifier => true | _ => false end.

(** The row with the target moved by [c]. *)
Definition shift_target (c : R) (s : sample) : sample :=
  {| x_bins := x_bins s; x_prior := x_prior s; x_y := x_y s + c; x_w := x_w s |}.
(** The model with its baseline moved by [c]; a failure stays the same failure. *)
Definition shift_result (c : R) (r : result) : result :=
  match r with
  | Trained m => Trained {| o_scale := o_scale m + c; o_offset := o_offset m + c; o_groups := o_groups m;
                            o_iterations := o_iterations m; o_loss := o_loss m |}
  | _ => r
  end.

(** The range of the targets of an estimator, without its ends; the location model for
    counts may predict 0. *)
Definition in_range (k : kind) (v : R) : Prop :=
  match k with
  | NBinomRegressor _ _ | PoissonRegressor => 0 < v
  | BinaryClassifier => 0 < v < 1
  | LocPoissonRegressor => 0 <= v
  | LocationRegressor | GBSRegressor _ => True
  end.
