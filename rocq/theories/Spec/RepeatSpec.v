(** Vocabulary for weights that count the copies of a row. *)
From Coq Require Import ZArith NArith QArith List Bool Reals.
From Verif.Model Require Import Num Flags Ecdf Frames LexBins WholeFit Refit.
From Verif.Spec Require Import FrameSpec.
Import ListNotations.

(** The rows [idx] of a frame with the rows 0, ..., n-1: every row at least once. *)
Definition every_row_listed (n : nat) (idx : list nat) : Prop :=
  (forall i, In i idx -> (i < n)%nat) /\ (forall i, (i < n)%nat -> In i idx).
(** How often each of the rows 0, ..., n-1 is listed, as the values of a column. *)
Definition times_listed (n : nat) (idx : list nat) : list fnum :=
  map (fun i => Fin (inject_Z (Z.of_nat (count_occ Nat.eq_dec idx i)))) (seq 0 n).
(** The frame with the rows [idx] of [X], each with weight one in column [w]. *)
Definition written_out (w : label) (idx : list nat) (X : frame) : frame :=
  {| fr_df := fr_df X; fr_float := fr_float X; fr_index := take idx 0%Z (fr_index X);
     fr_cols := map (fun cv => (fst cv, if label_eqb (fst cv) w then map (fun _ => Fin 1) idx else take idx NaN (snd cv))) (fr_cols X) |}.
(** A check of the training data that, for positive weights, looks at which targets
    occur. *)
Definition checks_targets (accepted : list target -> bool) : Prop :=
  forall T T', (forall t, In t (T ++ T') -> (0 < v_w t)%R) ->
    (forall y, In y (map v_y T) <-> In y (map v_y T')) -> accepted T = accepted T'.
(** No column is declared as continuous. *)
Definition no_continuous_column (props : option (label -> option N)) : Prop :=
  forall c p, declares props c p -> is_continuous_set p = false.
