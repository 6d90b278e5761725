(** Vocabulary for changes of the prior predictions. *)
From Coq Require Import List Bool Reals.
From Verif.Model Require Import Num Train Predict Link WholeFit BinFit PriceFit.
Import ListNotations.
Local Open Scope R_scope.

(** The prior predictions multiplied by [c], or moved by [c] if the model adds up. *)
Definition moved (l : link) (c p : R) : R :=
  match l with
  | Log => c * p
  | _ => p + c
  end.
Definition moved_row (l : link) (c : R) (s : sample) : sample :=
  {| x_bins := x_bins s; x_prior := option_map (moved l c) (x_prior s); x_y := x_y s; x_w := x_w s |}.
Definition moved_price (c : R) (s : price_sample) : price_sample :=
  {| q_row := moved_row Log c (q_row s); q_price := q_price s; q_exponent := q_exponent s |}.
Definition allowed_move (l : link) (c : R) : Prop :=
  match l with
  | Log => 0 < c
  | Logit => False
  | Identity => True
  end.

(** Weight and weighted sum of the prior predictions that are finite. *)
Fixpoint prior_weight (D : list sample) : R :=
  match D with
  | [] => 0
  | s :: r => match x_prior s with Some _ => x_w s | None => 0 end + prior_weight r
  end.
Fixpoint prior_sum (D : list sample) : R :=
  match D with
  | [] => 0
  | s :: r => match x_prior s with Some p => p * x_w s | None => 0 end + prior_sum r
  end.
(** The prior predictions have a mean, which is positive if the model multiplies. *)
Definition usable_prior (l : link) (D : list sample) : Prop :=
  prior_weight D <> 0 /\ match l with Log => 0 < prior_sum D / prior_weight D | _ => True end.

(** Two trainings come to the same end; if they succeed, their models satisfy [same]. *)
Definition same_end (same : model -> model -> Prop) (r r' : result) : Prop :=
  match r, r' with
  | NoBaseline, NoBaseline | MoreIterations, MoreIterations => True
  | Failed e, Failed e' => e = e'
  | Trained t, Trained t' => same t t'
  | _, _ => False
  end.

(** An order of the rows that depends on their positions only. *)
Definition by_position (reorder : forall A : Type, list A -> list A) : Prop :=
  forall A B (f : A -> B) l, reorder B (map f l) = map f (reorder A l).

(** All rows have the same prior prediction. *)
Definition all_priors (p : R) (D : list sample) : Prop := forall s, In s D -> x_prior s = Some p.
