(** Bin sums, chi-square and evidence. *)
From Coq Require Import List Bool Reals.
From Verif.Model Require Import Num LexBins Train Predict Link Estimators.
Import ListNotations.
Local Open Scope R_scope.

(** Sum of [v j] over the rows [j] of bin [k]. *)
Definition bin_sum (lex : list nat) (v : nat -> R) (k : nat) : R :=
  sumR (map (fun j => if Nat.eqb (nth j lex 0%nat) k then v j else 0) (seq 0 (length lex))).

(** Row [j] belongs to bin [k]. *)
Definition row_in (lex : list nat) (k j : nat) : Prop := nth_error lex j = Some k.

(** One number per row, and none of them negative. *)
Definition per_row (lex : list nat) (v : list R) : Prop := length v = length lex.
Definition nonneg (v : list R) : Prop := forall x, In x v -> 0 <= x.

Notation at_row := (fun (v : list R) (j : nat) => nth j v 0).

(** Weighted squared deviation of the data of bin [k] from [m], plus the prior
    term. *)
Definition chi_square (lex : list nat) (w x : list R) (x0 w0 : R) (k : nat) (m : R) : R :=
  bin_sum lex (fun j => at_row w j * (at_row x j - m) ^ 2) k + w0 * (m - x0) ^ 2.

(** Clipped prediction and the variance used for it. *)
Definition nonneg_part (s : R) : R := if Rltb 0 s then s else 0.
Definition pois_variance (s : R) : R := if Rltb 0 s then s else 1.

(** Weighted sum of one number per training row. *)
Definition weighted_sum (w v : list R) : R := sumR (map2 Rmult w v).

(** Weight of the training rows of [f], without those of its missing bin if that
    is not learned. *)
Definition learned_weight (f : feature) (w : list R) : R :=
  sumR (map2 (fun b wj => if f_mnl f && Nat.eqb b (f_finite f) then 0 else wj) (f_lex f) w).
