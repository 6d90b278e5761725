(** Shrinkage, windows, tables and squared errors. *)
From Coq Require Import List Bool Reals.
From Verif.Model Require Import Train Regularize.
Import ListNotations.
Local Open Scope R_scope.

(** [v] lies on the segment from [a] to [b]. *)
Definition between (a b v : R) : Prop := Rmin a b <= v <= Rmax a b.

(** Sum of [g i] for [i < n]. *)
Definition total (n : nat) (g : nat -> R) : R := sumR (map g (seq 0 n)).

(** Mean of the values weighted with the inverse squared uncertainties. *)
Definition inverse_variance_mean (x u : list R) : R :=
  total (length x) (fun i => nth i x 0 / nth i u 0 ^ 2) / total (length x) (fun i => 1 / nth i u 0 ^ 2).

(** Value the regularisation shrinks to. *)
Definition shrinkage_target (x u : list R) (prior : option R) : R :=
  match prior with Some p => p | None => inverse_variance_mean x u end.

(** All the numbers agree up to the tolerance of [np.allclose]. *)
Definition nearly_all (x : list R) (b : R) : Prop :=
  forall v, In v x -> Rabs (v - b) <= 1 / 100000000 + 1 / 100000 * Rabs b.

(** Bins of the window of three around [i]. *)
Definition neighbor (i j : nat) : Prop := (j <= i + 1)%nat /\ (i <= j + 1)%nat.
Definition neighbor_sum (n i : nat) (g : nat -> R) : R :=
  total n (fun j => if Nat.leb j (i + 1) && Nat.leb i (j + 1) then g j else 0).
(** Weight of a bin: inverse squared uncertainty, none if the uncertainty is not
    positive. *)
Definition bin_weight (u : list R) (j : nat) : R := if Rltb 0 (nth j u 0) then 1 / nth j u 0 ^ 2 else 0.
Definition window_mean (x u : list R) (i : nat) : R :=
  neighbor_sum (length x) i (fun j => bin_weight u j * nth j x 0) / neighbor_sum (length x) i (bin_weight u).

(** Tables of [n] rows and [m] columns and their entries. *)
Definition is_table (n m : nat) (t : table) : Prop := length t = n /\ forall r, In r t -> length r = m.
Definition entry (t : table) (i j : nat) : R := nth j (nth i t []) 0.
Definition positive_table (n m : nat) (t : table) : Prop := forall i j, (i < n)%nat -> (j < m)%nat -> 0 < entry t i j.
Definition row_influence (m : nat) (t u : table) (i : nat) : R := total m (fun j => entry t i j * entry u i j).
Definition column_influence (n : nat) (t u : table) (j : nat) : R := total n (fun i => entry t i j * entry u i j).

(** Weighted squared error of the line [a + b x]. *)
Definition squared_error (x y w : list R) (a b : R) : R :=
  total (length x) (fun i => nth i w 0 * (nth i y 0 - (a + b * nth i x 0)) ^ 2).

(** Two rows that carry weight have different abscissae. *)
Definition spread_out (x w : list R) : Prop :=
  exists i j, (i < length x)%nat /\ (j < length x)%nat /\ 0 < nth i w 0 /\ 0 < nth j w 0 /\ nth i x 0 <> nth j x 0.
