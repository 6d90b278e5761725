(** What a reader of the plot of a feature group of two columns expects. *)
From Coq Require Import ZArith List Bool Reals.
From Verif.Model Require Import Num Train Estimators PlotAxis Plot2D.
From Verif.Spec Require Import LexSpec TableSpec.
Import ListNotations.
Local Open Scope R_scope.

(** One number per bin, and one for missing values. *)
Definition recorded_for (n m : nat) (l : list R) : Prop := length l = S (n * m).
Definition plot_input (n m : nat) (unfitted smoothed weights : list R) (yp : option (list R * list R * list R)) : Prop :=
  recorded_for n m unfitted /\ recorded_for n m smoothed /\ recorded_for n m weights /\
  forall y p d, yp = Some (y, p, d) -> recorded_for n m y /\ recorded_for n m p /\ recorded_for n m d.

(** The first picture shows the deviations of predictions and targets if they are known,
    otherwise the factors before smoothing. *)
Definition shown_first (unfitted : list R) (yp : option (list R * list R * list R)) : list R :=
  match yp with Some (_, _, d) => d | None => unfitted end.

(** The plot is drawn as [p]. *)
Definition drawn_plot (run : nat -> option plot) (p : plot) : Prop :=
  exists steps, forall fuel, (steps <= fuel)%nat -> run fuel = Some p.

(** The point at bin [x] to the right and bin [y] upwards. *)
Definition pixel (p : image) (x y : nat) : R := nth x (nth y (i_lines p) []) 0.

(** Everything drawn in one of the diagrams on the right. *)
Definition curves (g : marginal) : list R := g_smoothed g ++ concat (g_others g) ++ concat (g_background g).

(** A training row: its bins of the two columns, unless one is missing, and its weight. The
    weight of each bin, as recorded in a training. *)
Definition two_row : Type := (option (nat * nat) * R)%type.
Definition number_of (n m : nat) (b : option (nat * nat)) : nat :=
  match b with
  | Some (i, j) => Z.to_nat (number [Z.of_nat n; Z.of_nat m] [Z.of_nat i; Z.of_nat j])
  | None => n * m
  end.
Definition recorded_weights (n m : nat) (rows : list two_row) : list R :=
  bincounts (map (fun r => number_of n m (fst r)) rows) (map snd rows) (S (n * m)).
Definition rows_of_table (n m : nat) (rows : list two_row) : Prop :=
  Forall (fun r => 0 <= snd r /\ forall i j, fst r = Some (i, j) -> (i < n)%nat /\ (j < m)%nat) rows.

(** The weighted sum of [f] over the rows with values in both columns that satisfy [p], and
    the weighted mean of the factors (not of their logarithms) of these rows. *)
Definition row_sum (p : nat -> nat -> bool) (f : nat -> nat -> R) (rows : list two_row) : R :=
  sumR (map (fun r => match fst r with
                      | Some (i, j) => if p i j then snd r * f i j else 0
                      | None => 0
                      end) rows).
Definition mean_factor (n m : nat) (smoothed : list R) (p : nat -> nat -> bool) (rows : list two_row) : R :=
  row_sum p (fun i j => exp (at_bins n m smoothed i j)) rows / row_sum p (fun _ _ => 1) rows.
Definition first_is (k i j : nat) : bool := Nat.eqb i k.
Definition second_is (k i j : nat) : bool := Nat.eqb j k.

(** Every bin of the table has weight. *)
Definition occupied_bins (n m : nat) (weights : list R) : Prop :=
  forall i j, (i < n)%nat -> (j < m)%nat -> 0 < at_bins n m weights i j.
Definition nonneg_bins (n m : nat) (weights : list R) : Prop :=
  forall i j, (i < n)%nat -> (j < m)%nat -> 0 <= at_bins n m weights i j.
