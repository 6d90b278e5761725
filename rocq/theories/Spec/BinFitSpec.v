(** Vocabulary for trainings of estimators that look at the rows of each bin. *)
From Coq Require Import List Bool Reals Permutation.
From Verif.Model Require Import Num LexBins Train Link WholeFit Quantile BinFit.
Import ListNotations.
Local Open Scope R_scope.

(** Costs that treat all rows alike. *)
Definition symmetric_costs (costs : cost_function) : Prop :=
  forall rows rows' : list (R * R * R), Permutation rows rows' ->
  costs (map (fun r => fst (fst r)) rows) (map (fun r => snd (fst r)) rows) (map snd rows) =
  costs (map (fun r => fst (fst r)) rows') (map (fun r => snd (fst r)) rows') (map snd rows').
Definition symmetric_mode (m : loss_mode) : Prop :=
  match m with
  | MultiplicativeQuantile q | AdditiveQuantile q => 0 < q <= 1
  | MultiplicativeCosts c | AdditiveCosts c | ClassifierCosts c => symmetric_costs c
  end.
(** The weights of the training data are not negative, and one is positive. *)
Definition weighted_data (D : list WholeFit.sample) : Prop :=
  (forall s, In s D -> 0 <= x_w s) /\ 0 < sumR (map x_w D).
(** Some order of the given elements. *)
Definition reorders (reorder : forall A : Type, list A -> list A) : Prop :=
  forall A (l : list A), Permutation (reorder A l) l.

(** Range of the predictions of a loss-minimising mode. *)
Definition mode_range (m : loss_mode) (v : R) : Prop :=
  match m with
  | MultiplicativeQuantile _ | MultiplicativeCosts _ => 0 < v
  | ClassifierCosts _ => 0 < v < 1
  | AdditiveQuantile _ | AdditiveCosts _ => True
  end.

(** The same row with the same mean prediction, perhaps with another weight. *)
Definition same_but_weight (a b : mean_row) : Prop :=
  x_bins (fst a) = x_bins (fst b) /\ x_prior (fst a) = x_prior (fst b) /\ x_y (fst a) = x_y (fst b) /\ snd a = snd b.
(** A smoother that looks at the weights of the bins at most to see which are empty. *)
Definition same_empty (w w' : list R) : Prop := Forall2 (fun a b => a = 0 <-> b = 0) w w'.
Definition ignores_weights (g : group) : Prop :=
  forall c w w' u v b, same_empty w w' -> g_smoother g c w u v b = g_smoother g c w' u v b.
Definition positive_weights (D : list mean_row) : Prop := forall r, In r D -> 0 < x_w (fst r).

(** Odds of a probability. *)
Definition odds (v : R) : R := v / (1 - v).
