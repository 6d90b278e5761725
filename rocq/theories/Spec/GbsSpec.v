(** Residuals of a bin. *)
From Coq Require Import List Reals.
From Verif.Spec Require Import EstimatorSpec.
Import ListNotations.
Local Open Scope R_scope.

(** Weight and weighted mean residual of bin [k]. *)
Definition bin_weight (lex : list nat) (w : list R) (k : nat) : R := bin_sum lex (fun j => nth j w 0) k.
Definition mean_residual (lex : list nat) (y w p : list R) (k : nat) : R :=
  bin_sum lex (fun j => nth j w 0 * (nth j y 0 - nth j p 0)) k / bin_weight lex w k.

(** Squared error of the bin when [x] is added to the predictions. *)
Definition bin_error (lex : list nat) (y w p : list R) (k : nat) (x : R) : R :=
  bin_sum lex (fun j => nth j w 0 * (nth j y 0 - (nth j p 0 + x)) ^ 2) k.
(** The same with a penalty on [x]. *)
Definition ridge_error (lex : list nat) (y w p : list R) (k : nat) (regalpha x : R) : R :=
  bin_error lex y w p k x + (1 + regalpha * bin_weight lex w k) * x ^ 2.
