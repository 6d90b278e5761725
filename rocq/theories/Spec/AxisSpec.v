(** What a reader of a factor plot expects of its vertical axis. *)
From Coq Require Import ZArith QArith List Reals.
From Verif.Model Require Import PlotAxis.
Import ListNotations.
Local Open Scope R_scope.

(** The value is drawn between the ends of the axis. *)
Definition on_axis (a : axis) (v : R) : Prop := IZR (a_low a) <= v <= IZR (a_high a).

(** The plot is drawn: the search for the number of ticks ends, and the axis is [a]. *)
Definition drawn_with (run : nat -> option axis) (a : axis) : Prop :=
  exists steps, forall fuel, (steps <= fuel)%nat -> run fuel = Some a.

(** The ticks divide the axis from one end to the other into equal parts. *)
Definition even_ticks (a : axis) : Prop :=
  exists parts, (0 < parts)%nat /\ length (a_ticks a) = S parts /\
  forall k, (k <= parts)%nat ->
    (nth k (a_ticks a) 0 == inject_Z (a_low a) + inject_Z (a_high a - a_low a) * inject_Z (Z.of_nat k) / inject_Z (Z.of_nat parts))%Q.

(** Lengths of error bars. *)
Definition positive (l : list R) : Prop := Forall (Rle 0) l.
