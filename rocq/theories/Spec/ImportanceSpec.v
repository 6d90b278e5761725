(** What importances and booked contributions mean. *)
From Coq Require Import ZArith List Bool String Reals.
From Verif.Model Require Import Num LexBins Train Predict Importance.
From Verif.Spec Require Import TrainSpec PredictSpec.
Import ListNotations.
Local Open Scope R_scope.

(** Mean over the training rows of the absolute learned contribution. *)
Definition mean_abs_contribution (f : feature) (s : fstate) : R :=
  mean (map (fun j => Rabs (contribution f (learned s) j)) (seq 0 (List.length (f_rows f)))).
Definition mean_abs_contributions (features : list feature) (st : state) : list R :=
  map2 mean_abs_contribution features (t_feats st).

(** One operation on the link predictions: a contribution of a feature group is
    included or removed. *)
Record booking := {
  b_remove : bool;
  b_values : list R;
  b_group : list string;
  b_ext : bool
}.
Definition book (cats : option (cat_key -> option string)) (d : frame) (b : booking) : option frame :=
  (if b_remove b then remove_predictions else update_predictions) d (b_values b) (b_group b) (b_ext b) cats.
Fixpoint bookings (cats : option (cat_key -> option string)) (d : frame) (l : list booking) : option frame :=
  match l with
  | [] => Some d
  | b :: r => match book cats d b with Some d' => bookings cats d' r | None => None end
  end.

(** Entry [j] of a column; 0 if the column does not exist. *)
Definition entry (d : frame) (c : string) (j : nat) : R :=
  match d c with Some v => nth j v 0 | None => 0 end.

(** What an operation contributes to row [j], with its sign. *)
Definition signed (b : booking) (j : nat) : R :=
  if b_remove b then - nth j (b_values b) 0 else nth j (b_values b) 0.

(** Sum of the operations selected by [sel]. *)
Definition booked_sum (sel : booking -> bool) (l : list booking) (j : nat) : R :=
  sumR (map (fun b => if sel b then signed b j else 0) l).

(** The category of a group: by its tuple of names or, for a single column, by its
    name. *)
Definition category_of (cats : option (cat_key -> option string)) (g : list string) (c : string) : Prop :=
  exists d, cats = Some d /\
    (d (KTuple g) = Some c \/ (d (KTuple g) = None /\ exists s, g = [s] /\ d (KName s) = Some c)).

(** Names the data frame uses itself. *)
Definition reserved (c : string) : Prop := In c ["factors"; "prior_exponents"; "exponents"; "base"]%string.

(** All columns have [n] entries. *)
Definition frame_rows (n : nat) (d : frame) : Prop := forall c v, d c = Some v -> List.length v = n.
