(** Which rows the price model learns the exponents from. *)
From Coq Require Import List Bool Reals.
From Verif.Model Require Import Num WholeFit PriceFit.
Import ListNotations.
Local Open Scope R_scope.

Definition has_price (r : price_sample) : Prop := isfinite (q_price r) = true.
(** Data sets with the same rows, except for the targets, weights and prior predictions of
    the rows without a price. *)
Definition same_offer (r r' : price_sample) : Prop :=
  q_price r' = q_price r /\ q_exponent r' = q_exponent r /\
  (has_price r -> x_y (q_row r') = x_y (q_row r) /\ x_w (q_row r') = x_w (q_row r)).
Definition same_offers (D D' : list price_sample) : Prop := Forall2 same_offer D D'.
(** No row in bin [b] has both a price and a weight. *)
Definition no_offers (lex : list nat) (D : list price_sample) (b : nat) : Prop :=
  forall r, In (b, r) (combine lex D) -> has_price r -> x_w (q_row r) = 0.
