(** Vocabulary for pipelines: columns measured in other units. *)
From Coq Require Import ZArith NArith QArith List Bool Reals String.
From Verif.Model Require Import Num Flags Ecdf BinTransform Frames Refit Pipe.
From Verif.Spec Require Import FrameSpec.
Import ListNotations.

(** Another scale for the values: NaN and infinities stay. *)
Definition on_values (f : Q -> Q) (v : fnum) : fnum := match v with Fin q => Fin (f q) | _ => v end.
(** [q] in units of which [a] make up one old unit, counted from a zero shifted by [s]. *)
Definition affine (a s : Q) (q : Q) : Q := (a * q + s)%Q.
Definition order_preserving (f : Q -> Q) : Prop := forall q r, (f q <= f r)%Q <-> (q <= r)%Q.

(** The frame with the values of column [c] on another scale. *)
Definition rescaled (c : label) (f : Q -> Q) (X : frame) : frame :=
  {| fr_df := fr_df X; fr_float := fr_float X; fr_index := fr_index X;
     fr_cols := map (fun cv => (fst cv, if label_eqb (fst cv) c then map (on_values f) (snd cv) else snd cv)) (fr_cols X) |}.

(** A continuous column in which -9 and -999 are ordinary numbers. *)
Definition continuous_column (props : option (label -> option N)) (c : label) : Prop :=
  exists p, declares props c p /\ is_continuous_set p = true /\ has_magic_missing_set p = false.

(** Different values of the list differ by more than 10^-9 of its whole range. *)
Definition well_spread (l : list fnum) : Prop := forall x y u v, In (Fin x) l -> In (Fin y) l -> In (Fin u) l -> In (Fin v) l ->
  (x < y)%Q -> ((1 # 1000000000) * (v - u) < y - x)%Q.

(** Two values of column [c] that the binning learned on [T] cannot tell apart. *)
Definition same_bin (b : binner) (T : frame) (c : label) (v v' : fnum) : Prop :=
  exists p f, learned b T c p f /\ transform_column p f [v] = transform_column p f [v'].
(** Row [i] of [Y] and row [j] of [Y'] agree: column by column they hold values related
    by [R]. *)
Definition rows_agree (R : label -> fnum -> fnum -> Prop) (Y : frame) (i : nat) (Y' : frame) (j : nat) : Prop :=
  forall c x x', column_is Y c x -> column_is Y' c x' -> R c (nth i x NaN) (nth j x' NaN).

(** The values lie on the same side of each threshold. *)
Definition same_side (thresholds : list Q) (v v' : Q) : Prop := forall t, In t thresholds -> ((v <= t)%Q <-> (v' <= t)%Q).
(** Values of a continuous column between which there is no threshold; missing values
    are alike. *)
Definition same_step (thresholds : list Q) (v v' : fnum) : Prop :=
  match v, v' with
  | Fin q, Fin q' => same_side thresholds q q'
  | Fin _, _ | _, Fin _ => False
  | _, _ => True
  end.
(** All rows of the frame agree, except in column [c]. *)
Definition constant_but (c : label) (Y : frame) : Prop :=
  forall d x i j, column_is Y d x -> d <> c -> (i < List.length x)%nat -> (j < List.length x)%nat -> nth i x NaN = nth j x NaN.

(** The column is not one of the features that [feature_properties] names. *)
Definition undeclared (props : option (label -> option N)) (c : option label) : Prop :=
  forall l, c = Some l -> forall p, ~ declares props l p.
