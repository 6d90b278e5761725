(** What the external features of the price model are fitted to, in terms of the training
    rows: prices, targets, weights, prior exponents and the contributions of the features. *)
From Coq Require Import List Bool Reals QArith Qreals.
From Verif.Model Require Import Num Train WholeFit PriceFit.
Import ListNotations.
Local Open Scope R_scope.

(** A training row with the sum of the contributions of the standard features (and the
    baseline), the sum of those of the other external features, and its bin. *)
Definition placed : Type := (price_sample * (R * R) * nat)%type.
Definition standard_part (e : placed) : R := fst (snd (fst e)).
Definition external_part (e : placed) : R := snd (snd (fst e)).
Definition its_bin (e : placed) : nat := snd e.
Definition row_of (e : placed) : price_sample := fst (fst e).
(** The exponent of the row without the fitted feature. *)
Definition exponent_so_far (e : placed) : R := q_exponent (row_of e) * exp (external_part e).
(** The prediction with the exponent multiplied by [l]. *)
Definition predicted (e : placed) (l : R) (price : Q) : R :=
  exp (standard_part e + exponent_so_far e * l * (Q2R price - 1)).
(** Squared error relative to the variance [a * p + c * p * p] of the present prediction;
    rows without a price do not count. *)
Definition priced_error (a c : R) (e : placed) (l : R) : R :=
  match q_price (row_of e) with
  | Fin price =>
      let p := predicted e 1 price in
      x_w (q_row (row_of e)) * (x_y (q_row (row_of e)) - predicted e l price) ^ 2 / (a * p + c * p * p)
  | _ => 0
  end.
(** Distance of the exponent from its prior and of [l] from one, linear and logarithmic. *)
Definition exponent_penalty (e : placed) (l : R) : R :=
  (exponent_so_far e * l - q_exponent (row_of e)) ^ 2 + (l - 1) ^ 2 + ln l ^ 2 + (ln l + external_part e) ^ 2.
(** The training rows with the present predictions and the bins of the fitted feature. *)
Definition placed_rows (lex : list nat) (D : list price_sample) (p : preds) : list placed :=
  combine (combine D (combine (p_factors p) (p_exponents p))) lex.
Definition rows_of_bin (b : nat) (E : list placed) : list placed := filter (fun e => Nat.eqb (its_bin e) b) E.
Definition total (l : list R) : R := fold_right Rplus 0 l.
Definition exponent_loss (a c var_l : R) (E : list placed) (b : nat) (l : R) : R :=
  total (map (fun e => priced_error a c e l) (rows_of_bin b E)) +
  total (map (fun e => exponent_penalty e l) (rows_of_bin b E)) / var_l / INR (length (rows_of_bin b E)).
