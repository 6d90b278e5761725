(** Vocabulary for recoding the categories of a column of the data frame. *)
From Coq Require Import ZArith NArith QArith Qabs List Bool Reals.
From Verif.Model Require Import Num Flags Ecdf BinTransform Frames Refit Pipe.
From Verif.Spec Require Import FrameSpec PipeSpec.
Import ListNotations.

(** Different categories get different codes. *)
Definition one_to_one (f : Q -> Q) : Prop := forall q r, (f q == f r)%Q <-> (q == r)%Q.

(** A categorical column in which -9 and -999 are ordinary codes. *)
Definition categorical_column (props : option (label -> option N)) (c : label) : Prop :=
  exists p, declares props c p /\ is_continuous_set p = false /\ has_magic_missing_set p = false.

(** The column holds finite codes and missing values. *)
Definition codes_or_missing (t : list fnum) : Prop := forall v, In v t -> v = NaN \/ exists q, v = Fin q.
(** [q] is one of the categories of the column [t]. *)
Definition category (t : list fnum) (q : Q) : Prop := exists r, In (Fin r) t /\ (r == q)%Q.
(** [q] is no category of [t], and none of them is within the search tolerance. *)
Definition new_category (t : list fnum) (q : Q) : Prop :=
  forall a u w, In (Fin a) t -> In (Fin u) t -> In (Fin w) t ->
    ((1 # 1000000000) * (1 + (w - u)) < Qabs (a - q))%Q.
(** A value to predict for: one of the categories of the training, missing, or a
    category that is new before and after the recoding [f]. *)
Definition known_or_new (f : Q -> Q) (t : list fnum) (v : fnum) : Prop :=
  match v with
  | Fin q => category t q \/ new_category t q /\ new_category (map (on_values f) t) (f q)
  | _ => True
  end.
(** The category with the smallest code keeps the smallest code. *)
Definition keeps_first (f : Q -> Q) (t : list fnum) : Prop :=
  forall q, In (Fin q) t -> (forall r, In (Fin r) t -> (q <= r)%Q) -> forall r, In (Fin r) t -> (f q <= f r)%Q.

(** Each category of column [c] occurs in a training row in which all columns of the
    group are binned and none is missing. *)
Definition seen_together (b : binner) (X : frame) (names : list label) (c : label) (t : list fnum) : Prop :=
  forall q, In (Fin q) t -> exists j, nth_error t j = Some (Fin q) /\
    forall d, In d names -> exists p g x v, learned b X d p g /\ column_is X d x /\ nth_error x j = Some v /\
      transform_column p g [v] <> Some [MISSING].

(** A feature group of the estimator that contains column [c]; without a list of groups
    each column is one. *)
Definition group_with (o : object) (c : label) (names : list label) : Prop :=
  In c names /\ match b_groups o with Some gl => In names gl | None => names = [c] end.
