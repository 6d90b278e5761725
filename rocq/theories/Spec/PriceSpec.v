(** What the exponents of the price model minimise, and its predictions. *)
From Coq Require Import String List Bool Reals QArith Qreals.
From Verif.Model Require Import Num Train SmootherChoice Price.
Import ListNotations.
Local Open Scope R_scope.

Definition rows_in (b : nat) (rows : list price_row) : list price_row := filter (fun r => Nat.eqb (pr_bin r) b) rows.
(** Squared errors of the rows of a bin with the exponent of the other features
    multiplied by [l], and the mean penalty: distance of the exponent from its prior,
    of [l] from one, and both on the logarithmic scale. *)
Definition row_error (r : price_row) (l : R) : R := pr_s r * (pr_y r - pr_p r * exp (pr_k r * l * pr_x r)) ^ 2.
Definition row_penalty (r : price_row) (l : R) : R :=
  (pr_k r * l - pr_prior r) ^ 2 + (l - 1) ^ 2 + ln l ^ 2 + (ln l + pr_lkp r) ^ 2.
Definition bin_loss (rows : list price_row) (var_l : R) (b : nat) (l : R) : R :=
  sumR (map (fun r => row_error r l) (rows_in b rows)) +
  sumR (map (fun r => row_penalty r l) (rows_in b rows)) / var_l / INR (List.length (rows_in b rows)).

(** Finite results of a Newton step. *)
Definition all_finite (s : step_result) : Prop := exists l j h, s = {| new_l := RFin l; jac := RFin j; hess := RFin h |}.

(** Sums of the contributions of the standard and the external features. *)
Definition contribution (ext : bool) (contributions : list (bool * R)) : R :=
  sumR (map snd (filter (fun c => Bool.eqb (fst c) ext) contributions)).

(** Arguments of the root finding that fit together: one entry per bin, increasing
    brackets of non-negative parameters. *)
Definition bracketed (x_l x_r : list R) : Prop := Forall2 (fun lo hi => lo <= hi /\ 0 <= hi) x_l x_r.
Definition one_per_bin {A} (f : list R -> list A) : Prop := forall l, List.length (f l) = List.length l.
(** A variance: positive, possibly infinite. *)
Definition positive_variance (v : rfloat) : Prop := match v with RFin r => 0 < r | RInf => True | _ => False end.

(** Among the vectors [calls], one has the value [p] at bin [i] and a result there
    with [sign] of the gradient. *)
Definition seen (step : list R -> list step_result) (calls : list (list R)) (i : nat) (sign : R -> Prop) (p : R) : Prop :=
  exists l s j, In l calls /\ nth_error l i = Some p /\ nth_error (step l) i = Some s /\ jac s = RFin j /\ sign j.

(** The columns of a feature group, and whether it is given with another type. *)
Definition columns_of {K} (g : @group_or_id K) : list K := match g with Id c _ => c | Tuple c => c | Single c => [c] end.
Definition of_type {K} (t : option string) (g : @group_or_id K) : Prop := match g with Id _ t' => t' = t | _ => True end.
