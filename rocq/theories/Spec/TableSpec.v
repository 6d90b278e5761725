(** Bins of a feature group of two columns as a table. *)
From Coq Require Import ZArith List Bool Reals.
From Verif.Model Require Import Num LexBins.
From Verif.Spec Require Import LexSpec RegularizeSpec.
Import ListNotations.
Local Open Scope R_scope.

(** The entry of a list of one number per bin for bin [i] of the first and bin [j] of the
    second of two columns of [n] and [m] bins. *)
Definition at_bins (n m : nat) (l : list R) (i j : nat) : R :=
  nth (Z.to_nat (number [Z.of_nat n; Z.of_nat m] [Z.of_nat i; Z.of_nat j])) l 0.

(** The centres of all bins of the group. *)
Definition two_columns (n m : nat) : list (list Z) := arange_multi [Z.of_nat n; Z.of_nat m].

(** One number per bin. *)
Definition per_bin (n m : nat) (l : list R) : Prop := length l = (n * m)%nat.
Definition positive_bins (n m : nat) (l : list R) : Prop :=
  forall i j, (i < n)%nat -> (j < m)%nat -> 0 < at_bins n m l i j.

(** The weighted sum of the values of all bins with bin [i] of the first column, and of all
    bins with bin [j] of the second. *)
Definition first_effect (n m : nat) (l u : list R) (i : nat) : R := total m (fun j => at_bins n m l i j * at_bins n m u i j).
Definition second_effect (n m : nat) (l u : list R) (j : nat) : R := total n (fun i => at_bins n m l i j * at_bins n m u i j).

(** [l'] is [l] with an effect [a] of the first and [b] of the second column added. *)
Definition with_effects (n m : nat) (a b : nat -> R) (l l' : list R) : Prop :=
  forall i j, (i < n)%nat -> (j < m)%nat -> at_bins n m l' i j = at_bins n m l i j + a i + b j.

(** The uncertainties are products of a number for each bin of the first and one for each
    bin of the second column. *)
Definition independent_bins (n m : nat) (u : list R) : Prop :=
  exists p q, forall i j, (i < n)%nat -> (j < m)%nat -> at_bins n m u i j = p i * q j.
