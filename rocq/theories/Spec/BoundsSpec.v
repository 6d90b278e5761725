(** Specification of the boundaries reported for plots. *)
From Coq Require Import ZArith NArith QArith List Bool.
From Verif.Model Require Import Num Flags Ecdf BinTransform Frames.
From Verif.Spec Require Import BinningSpec FrameSpec.
Import ListNotations.

(** A binner that has been fitted, and one that has been fitted on a table in which
    column [c] was no feature. *)
Definition trained (b : binner) : Prop := exists b0 T, table T /\ bin_fit b0 T = FOk b.
Definition trained_without (c : label) (b : binner) : Prop :=
  exists b0 T, table T /\ bin_fit b0 T = FOk b /\ forall p, ~ feature_column b0 T c p.

(** The bin into which a value is put. *)
Definition put_in (prop : N) (f : fit_result) (x : fnum) (k : nat) : Prop :=
  transform_column prop f [x] = Some [Fin (inject_Z (Z.of_nat k))].

(** A finite value with at most five decimals. *)
Definition five_decimals (q : Q) : Prop := exists z : Z, (q * inject_Z 100000 == inject_Z z)%Q.
