(** Weighted quantiles and rows of bins. *)
From Coq Require Import ZArith List Bool Reals Permutation Sorted.
From Verif.Model Require Import Train Quantile.
Import ListNotations.
Local Open Scope R_scope.

(** A correct sort by target. *)
Definition sorts (sort : list qrow -> list qrow) : Prop :=
  forall rows, Permutation (sort rows) rows /\ StronglySorted (fun a b => fst a <= fst b) (sort rows).

Definition total_weight (rows : list qrow) : R := sumR (map snd rows).
(** Weight of the targets up to, and below, a value. *)
Definition weight_upto (v : R) (rows : list qrow) : R :=
  sumR (map (fun r => if Rle_dec (fst r) v then snd r else 0) rows).
Definition weight_below (v : R) (rows : list qrow) : R :=
  sumR (map (fun r => if Rlt_dec (fst r) v then snd r else 0) rows).
Definition is_quantile (q : R) (rows : list qrow) (v : R) : Prop :=
  In v (map fst rows) /\ q * total_weight rows <= weight_upto v rows /\ weight_below v rows < q * total_weight rows.

Definition weighted_rows (rows : list qrow) : Prop :=
  (forall r, In r rows -> 0 <= snd r) /\ 0 < total_weight rows.

(** Costs of predicting one value for all rows. *)
Definition constant_costs (q : R) (rows : list qrow) (c : R) : option R :=
  quantile_costs (map (fun _ => c) rows) (map fst rows) (map snd rows) q.

(** The rows of a bin. *)
Definition rows_of {row : Type} (b : nat) (rows : list (nat * row)) : list row :=
  map snd (filter (fun p => Nat.eqb (fst p) b) rows).
(** [sorted] are the rows in the order of an argsort of their bins. *)
Definition bin_sort {row : Type} (sorted rows : list (nat * row)) : Prop :=
  Permutation sorted rows /\ StronglySorted le (map fst sorted).
(** The bins below [n] without rows, in any order. *)
Definition empty_bins {row : Type} (n : nat) (rows : list (nat * row)) (empty : list nat) : Prop :=
  NoDup empty /\ forall b, In b empty <-> (b < n)%nat /\ ~ In b (map fst rows).

(** A minimiser stays at its start if the objective is constant. *)
Definition keeps_start (minimize : (R -> option R) -> R -> R) : Prop :=
  forall f x0, (forall x, f x = f x0) -> minimize f x0 = x0.
(** A minimiser finds a value that is not worse than any other. *)
Definition is_minimum (f : R -> option R) (p : R) : Prop :=
  exists v, f p = Some v /\ forall x w, f x = Some w -> v <= w.

(** [c] splits the targets at level [q]: at most the fraction [q] of the weight lies
    below, at least that fraction up to it. *)
Definition splits (q : R) (rows : list qrow) (c : R) : Prop :=
  weight_below c rows <= q * total_weight rows <= weight_upto c rows.
(** What is left for a parameter to explain: residuals for summands, ratios (weighted
    with the predictions) for factors. *)
Definition residuals (rows : list sample) : list qrow := map (fun s => (s_y s - s_pred s, s_w s)) rows.
Definition ratios (rows : list sample) : list qrow := map (fun s => (s_y s / s_pred s, s_w s * s_pred s)) rows.
