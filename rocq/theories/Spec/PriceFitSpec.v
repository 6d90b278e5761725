(** Vocabulary for properties of whole trainings of the price model. *)
From Coq Require Import QArith List Bool Reals.
From Verif.Model Require Import Num WholeFit PriceFit.
Import ListNotations.

(** The row has no price, or the price the model takes as reference. *)
Definition neutral_price (r : price_sample) : Prop :=
  match q_price r with Fin q => (q == 1)%Q | _ => True end.
(** The row with another price. *)
Definition with_price (r : price_sample) (x : fnum) : price_sample :=
  {| q_row := q_row r; q_price := x; q_exponent := q_exponent r |}.
(** [m] copies of the row with weight one. *)
Definition price_copies (r : price_sample) (m : nat) : list price_sample :=
  repeat {| q_row := {| x_bins := x_bins (q_row r); x_prior := x_prior (q_row r); x_y := x_y (q_row r); x_w := 1 |};
            q_price := q_price r; q_exponent := q_exponent r |} m.
