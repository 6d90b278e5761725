(** Vocabulary for several trainings of one estimator. *)
From Coq Require Import ZArith List Bool Reals String.
From Verif.Model Require Import Num LexBins Train Predict Link Estimators WholeFit Frames Importance Diagnostics Refit.
Import ListNotations.
Local Open Scope R_scope.

(** A new estimator with the feature groups [gl] and no observers. *)
Definition fresh (gl : list (list label)) : object := new_object (Some gl) [].

(** One feature group for each column of the data. *)
Definition one_each (d : data) : list (list label) := map (fun c => [c]) (map fst (d_cols d)).

(** What a caller can ask a trained estimator, except for the importances and the
    observers: the same answers. *)
Definition same_model (k : kind) (prior : bool) (a b : object) : Prop :=
  b_groups a = b_groups b /\ b_scale a = b_scale b /\ b_iter a = b_iter b /\ b_loss a = b_loss b /\
  forall X, predict_frame k prior a X = predict_frame k prior b X.

(** The records of [r] followed by those of [r']. *)
Definition continued (r r' joint : record) : Prop :=
  r_loss joint = r_loss r ++ r_loss r' /\ r_change joint = r_change r ++ r_change r'.

(** The data with the columns in another order. *)
Definition with_columns (d : data) (cols : list (label * list fnum)) : data :=
  {| d_cols := cols; d_targets := d_targets d |}.

(** The estimator after trainings on the data sets of [history], one after the other,
    whether they succeed or not. *)
Definition trained_on (fit : object -> data -> option error * object) (history : list data) (o : object) : object :=
  fold_left (fun o d => snd (fit o d)) history o.
