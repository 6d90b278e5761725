(** Concrete cases for the lexicographic bin numbers. *)
From Coq Require Import ZArith QArith List Bool Lia.
From Verif.Model Require Import Num LexBins.
From Verif.Spec Require Import LexSpec.
Import ListNotations.
Local Open Scope Z_scope.

Lemma ex_c12 : shape [2; 3] /\ arange_multi [2; 3] = [[0;0];[0;1];[0;2];[1;0];[1;1];[1;2]] /\
  holds_tuple [Fin 1; Fin 2] [1; 2] /\ valid_tuple [2; 3] [1; 2] /\
  lexicographic_binnos 2 [[Fin 1; Fin 2]; [Fin 0; NaN]; [Fin 1; Fin 0]] None = ([5; 6; 3], [2; 3]).
Proof.
  split; [repeat constructor|]. split; [reflexivity|]. split.
  { constructor; [exists 1%Q; split; reflexivity|]. constructor; [exists 2%Q; split; reflexivity|constructor]. }
  split; [|reflexivity]. constructor; [lia|]. constructor; [lia|constructor].
Qed.

Lemma invalid_refuted : exists n rows row,
  shape n /\ nth_error rows 0 = Some row /\ length row = length n /\ invalid_row n row /\
  nth_error (fst (lexicographic_binnos 2 rows (Some n))) 0 <> Some (size n).
Proof.
  exists [2; 2], [[Fin 1; NaN]], [Fin 1; NaN].
  split; [repeat constructor|]. split; [reflexivity|]. split; [reflexivity|]. split; [|discriminate].
  exists 1%nat, NaN, 2. split; [reflexivity|]. split; [reflexivity|]. left. reflexivity.
Qed.

Lemma ex_c13 : fst (lexicographic_binnos 2 [[Fin 1; NaN]; [Fin 5; Fin 0]; [Fin 1; Fin 1]] (Some [2; 2])) = [4; 4; 3] /\
  fst (lexicographic_binnos 2 [[Fin 1; NaN]; [Fin 5; Fin 0]] (Some [2; 2])) = [0; 0].
Proof. split; reflexivity. Qed.

Lemma mask_refuted : exists n wx row l,
  shape n /\ weights_for n wx /\ length row = length n /\ invalid_row n row /\ (exists t, holds_tuple row t) /\
  not_seen_events (length n) [row] wx n = Some l /\ ~ (nth_error l 0 = Some true <-> unseen wx (size n)).
Proof.
  exists [2; 2], [1; 0; 2; 3]%Q, [Fin 7; Fin 1], [false].
  split; [repeat constructor|]. split; [left; reflexivity|]. split; [reflexivity|].
  split; [exists 0%nat, (Fin 7), 2; repeat split; right; right; reflexivity|].
  split; [exists [7; 1]; constructor; [exists 7%Q; split; reflexivity|]; constructor; [exists 1%Q; split; reflexivity|constructor]|].
  split; [reflexivity|]. cbn. intros [_ H]. specialize (H I). discriminate.
Qed.

Lemma ex_c14 : weights_for [2; 2] [1; 0; 2; 3; 1]%Q /\
  not_seen_events 2 [[Fin 0; Fin 1]; [Fin 1; NaN]; [Fin 7; Fin 1]; [Fin 1; Fin 1]] [1; 0; 2; 3; 1]%Q [2; 2]
  = Some [true; false; false; false] /\
  not_seen_events 1 [[Fin 0]; [Fin 7]; [NaN]; [Fin 1]] [1; 0]%Q [2] = Some [false; true; true; true].
Proof. split; [right; reflexivity|]. split; reflexivity. Qed.
