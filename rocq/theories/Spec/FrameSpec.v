(** Specification of frame-level behaviour: which columns are features, what
    stays, and selections of rows. *)
From Coq Require Import ZArith NArith QArith List Bool String.
From Verif.Model Require Import Num Flags Ecdf BinTransform Frames.
Import ListNotations.

(** A table: distinct labels, one value per row in every column. *)
Definition table (X : frame) : Prop :=
  NoDup (labels X) /\ forall c v, In (c, v) (fr_cols X) -> List.length v = List.length (fr_index X).

Definition column_is (X : frame) (c : label) (v : list fnum) : Prop := In (c, v) (fr_cols X).

(** Same kind, same rows and same columns in the same order. *)
Definition same_shape (X Y : frame) : Prop :=
  fr_df X = fr_df Y /\ fr_index X = fr_index Y /\ labels X = labels Y.

(** Column [c] is declared as a feature with property [p]; without declarations
    all columns are continuous (flag 1). *)
Definition declares (props : option (label -> option N)) (c : label) (p : N) : Prop :=
  match props with None => p = 1%N | Some d => d c = Some p end.

(** A feature column of a frame: declared and not the weight column. *)
Definition feature_column (b : binner) (X : frame) (c : label) (p : N) : Prop :=
  In c (labels X) /\ b_weight b <> Some c /\ declares (b_props b) c p.

(** The weights of the rows: the weight column, or ones. *)
Definition row_weights (b : binner) (X : frame) (ws : list Q) : Prop :=
  match b_weight b with
  | None => ws = map (fun _ => 1%Q) (fr_index X)
  | Some w => column_is X w (map Fin ws)
  end.

(** What was learned for a feature column of the training frame [T]. *)
Definition learned (b : binner) (T : frame) (c : label) (p : N) (f : fit_result) : Prop :=
  exists t ws, column_is T c t /\ feature_column b T c p /\ row_weights b T ws /\
    f = fit_column p (b_bins b c) (b_eps b) (b_tol b) (combine t ws).

(** The rows at the given positions, in that order. *)
Definition take {A} (idx : list nat) (d : A) (l : list A) : list A := map (fun i => nth i l d) idx.
Definition take_rows (idx : list nat) (X : frame) : frame :=
  {| fr_df := fr_df X; fr_float := fr_float X; fr_index := take idx 0%Z (fr_index X);
     fr_cols := map (fun cv => (fst cv, take idx NaN (snd cv))) (fr_cols X) |}.
