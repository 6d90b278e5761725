(** Vocabulary for the numbers -9 and -999 that stand for missing values. *)
From Coq Require Import ZArith NArith QArith List Bool.
From Verif.Model Require Import Num Flags Ecdf.
From Verif.Spec Require Import BinningSpec.
Import ListNotations.

Definition magic_numbers : list fnum := [Fin (inject_Z (-999)); Fin (inject_Z (-9))].
Definition is_magic (x : fnum) : bool := existsb (feq x) magic_numbers.
(** The same training rows with NaN for these numbers. *)
Definition magic_as_nan (zw : list sample) : list sample :=
  map (fun p => (if is_magic (fst p) then NaN else fst p, snd p)) zw.
(** How many of them occur in the training rows and are smaller than [x]. *)
Definition magic_below (zw : list sample) (x : fnum) : nat :=
  length (filter (fun m => existsb (feq m) (map fst zw) && flt m x) magic_numbers).
