(** Specification of the estimator's methods on data frames. *)
From Coq Require Import List Bool Reals String.
From Verif.Model Require Import Num LexBins Train Link Frames Lifecycle.
Import ListNotations.
Local Open Scope R_scope.

(** The frame [X] with the further column [o] at the end. *)
Definition with_column (X : dframe) (o : label) (v : column) : dframe := X ++ [(o, v)].

(** [X] reduced to the columns listed in [cs]. *)
Definition only (cs : list label) (X : dframe) : dframe := filter (fun cv => existsb (label_eqb (fst cv)) cs) X.

(** A usable name for the output column. *)
Definition named (c : label) : Prop := c <> LName "" /\ c <> LPos 0.

(** In-sample predictions are what the trained model predicts for the training
    data (property C19). *)
Definition reproduces {M} (train : list column -> list column -> column -> option (M * list R)) (score : M -> list column -> list R) : Prop :=
  forall extra inputs y m scores, train extra inputs y = Some (m, scores) -> score m inputs = scores.

(** A small learner for the examples: it keeps the columns besides the features and
    predicts the first feature column; without targets it fails. *)
Definition number (v : option R) : R := match v with Some x => x | None => 0 end.
Definition first_column (inputs : list column) : list R := match inputs with [] => [] | c :: _ => map number c end.
Definition copy_train (extra inputs : list column) (y : column) : option (list column * list R) :=
  match y with [] => None | _ => Some (extra, first_column inputs) end.
Definition copy_score (m : list column) (inputs : list column) : list R := first_column inputs.
