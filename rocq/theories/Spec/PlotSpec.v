(** What plots of the bins of a feature should show. *)
From Coq Require Import List Bool Reals.
From Verif.Model Require Import Train Quantile PlotData.
From Verif.Spec Require Import EstimatorSpec QuantileSpec.
Import ListNotations.
Local Open Scope R_scope.

(** One entry for each of [n] regular bins and the bin of missing values. *)
Definition entry_per_bin (n : nat) (d : plot_data) : Prop :=
  length (d_dev d) = S n /\ length (d_y d) = S n /\ length (d_pred d) = S n.
(** The sign of [v] is that of the comparison of [a] with [b]. *)
Definition signals (v a b : R) : Prop := (0 < v <-> b < a) /\ (v = 0 <-> a = b) /\ (v < 0 <-> a < b).
(** Weighted mean of the predictions in bin [k]. *)
Definition bin_mean (lex : list nat) (w v : list R) (k : nat) : R :=
  bin_sum lex (fun j => at_row w j * at_row v j) k / bin_sum lex (at_row w) k.
