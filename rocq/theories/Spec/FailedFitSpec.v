(** What a user expects of an estimator after a training that raised. *)
From Coq Require Import List Reals.
From Verif.Model Require Import Num Predict Train FailedFit.
Import ListNotations.

(** Predicting raises, or gives what the former model gave. *)
Definition fails_safely (old new : object) : Prop :=
  forall X, predict_object new X = None \/ predict_object new X = predict_object old X.
(** Predicting raises for every data. *)
Definition refuses (ob : object) : Prop := forall X, predict_object ob X = None.
(** Predicting never raises. *)
Definition answers (ob : object) : Prop := forall X, exists p, predict_object ob X = Some p.
