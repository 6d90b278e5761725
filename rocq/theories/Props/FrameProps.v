(** Binning of whole frames (property C78). *)
From Coq Require Import ZArith NArith QArith List Bool String.
From Verif.Model Require Import Num Flags Ecdf BinTransform Frames.
From Verif.Spec Require Import FrameSpec.
From Verif.Proofs Require Import FrameFacts.
Import ListNotations.

(** [bin_transform b X] is the result of BinNumberTransformer.transform together
    with the caller's frame after the call. *)
Theorem C78_columns : forall b T b' X R X', table T -> table X -> bin_fit b T = FOk b' ->
  bin_transform b' X = (FOk R, X') ->
  same_shape R X /\
  forall c x, column_is X c x ->
    (forall p f, learned b T c p f -> exists y, column_is R c y /\ transform_column p f x = Some y) /\
    ((forall p, ~ feature_column b T c p) -> column_is R c x).
Proof. exact transform_columns. Qed.
Print Assumptions C78_columns.

Theorem C78_accepted : forall b T b' X, table T -> table X -> bin_fit b T = FOk b' ->
  (forall c p, feature_column b T c p <-> feature_column b X c p) ->
  exists R, fst (bin_transform b' X) = FOk R.
Proof. exact transform_accepts. Qed.
Print Assumptions C78_accepted.

Theorem C78_missing_column : forall b T b' X c p, table T -> bin_fit b T = FOk b' ->
  feature_column b T c p -> ~ In c (labels X) -> fr_df X = true \/ frame_empty X = false ->
  exists e, fst (bin_transform b' X) = FErr e.
Proof. exact transform_rejects. Qed.
Print Assumptions C78_missing_column.

(** Each row is binned on its own: any selection of rows, in any order, gives the
    same selection of the result. *)
Theorem C78_rows : forall b T b' X R X' idx, table T -> table X -> bin_fit b T = FOk b' ->
  bin_transform b' X = (FOk R, X') -> (forall i, In i idx -> (i < List.length (fr_index X))%nat) ->
  fst (bin_transform b' (take_rows idx X)) = FOk (take_rows idx R).
Proof. exact transform_rows. Qed.
Print Assumptions C78_rows.

Theorem C78_input_kept : forall b X, b_inplace b = false -> snd (bin_transform b X) = X.
Proof. exact transform_input. Qed.
Print Assumptions C78_input_kept.
Theorem C78_inplace : forall b X R, b_inplace b = true -> fst (bin_transform b X) = FOk R ->
  snd (bin_transform b X) = R.
Proof. exact transform_inplace. Qed.
Print Assumptions C78_inplace.
(** In place, a failing call leaves the caller's frame binned in parts: the input
    check only counts columns. *)
Theorem C78_inplace_failure_refuted : exists b T b' X, table T /\ table X /\ bin_fit b T = FOk b' /\
  (exists e, fst (bin_transform b' X) = FErr e) /\ snd (bin_transform b' X) <> X.
Proof. exact inplace_partial. Qed.
Print Assumptions C78_inplace_failure_refuted.

Example c78_example : table ex_train /\ table ex_new /\ bin_fit (ex_binner false) ex_train = FOk (ex_fitted false) /\
  (forall c p, feature_column (ex_binner false) ex_train c p <-> feature_column (ex_binner false) ex_new c p) /\
  fst (bin_transform (ex_fitted false) ex_new) =
  FOk {| fr_df := true; fr_float := true; fr_index := [3; 1; 2]%Z;
     fr_cols := [(LName "note", nums [9; 9; 9]%Z); (LName "kind", nums [1; -1; 0]%Z); (LName "price", nums [1; -1; 0]%Z)] |}.
Proof.
  exact (conj (proj1 ex_tables) (conj (proj1 (proj2 ex_tables)) (conj (ex_fit false) (conj ex_features ex_transform)))).
Qed.

(** The quantile transformer: the same columns, for every non-empty frame … *)
Theorem C78_quantile_columns : forall b T b' X R X', table T -> table X -> bin_fit b T = FOk b' ->
  frame_empty X = false -> ecdf_transform b' X = (FOk R, X') ->
  labels R = labels X /\
  forall c x, column_is X c x ->
    (forall p f, learned b T c p f -> exists y, column_is R c y /\ ecdf_column p f x = Some y) /\
    ((forall p, ~ feature_column b T c p) -> column_is R c x).
Proof. exact ecdf_columns. Qed.
Print Assumptions C78_quantile_columns.
Theorem C78_quantile_input_kept : forall b X, fr_float X = false -> snd (ecdf_transform b X) = X.
Proof. exact ecdf_copies. Qed.
Print Assumptions C78_quantile_input_kept.
(** … but float data is always overwritten with the result … *)
Theorem C78_quantile_overwrites_always_refuted : forall b X R X', fr_float X = true -> frame_empty X = false ->
  ecdf_transform b X = (FOk R, X') -> fr_cols X' = fr_cols R.
Proof. exact ecdf_mutates. Qed.
Print Assumptions C78_quantile_overwrites_always_refuted.
(** … and the row labels of a frame are replaced by 0, 1, 2, … *)
Theorem C78_quantile_index_always_refuted : forall b T b' X R X', table T -> bin_fit b T = FOk b' -> fr_df X = true ->
  frame_empty X = false -> ecdf_transform b' X = (FOk R, X') ->
  fr_index R = map Z.of_nat (seq 0 (List.length (fr_index X))).
Proof. exact ecdf_index_fitted. Qed.
Print Assumptions C78_quantile_index_always_refuted.
Example c78_quantile_example : ecdf_transform (ex_fitted false) ex_new =
  (FOk {| fr_df := true; fr_float := true; fr_index := [0; 1; 2]%Z;
     fr_cols := [(LName "note", nums [9; 9; 9]%Z); (LName "kind", [Fin (8#8); NaN; Fin (3#8)]); (LName "price", [Fin (8#8); NaN; Fin 0])] |},
   {| fr_df := true; fr_float := true; fr_index := [3; 1; 2]%Z;
     fr_cols := [(LName "note", nums [9; 9; 9]%Z); (LName "kind", [Fin (8#8); NaN; Fin (3#8)]); (LName "price", [Fin (8#8); NaN; Fin 0])] |}).
Proof. exact ex_ecdf. Qed.
