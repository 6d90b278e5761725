(** Specification of the diagnostics. *)
From Coq Require Import ZArith List Bool Reals Sorted Permutation.
From Verif.Model Require Import Train Quantile Diagnostics.
From Verif.Spec Require Import QuantileSpec.
Import ListNotations.
Local Open Scope R_scope.

(** The [k]-th of [n] equal parts of the range ends at [edge lo hi n k]. *)
Definition edge (lo hi : R) (n k : nat) : R := lo + INR k * ((hi - lo) / INR n).
(** [b] is the number, from 1 on, of the part that holds [v]: the upper end belongs to
    the next part unless it is the end of the range. *)
Definition in_part (lo hi : R) (n : nat) (v : R) (b : nat) : Prop :=
  (1 <= b <= n)%nat /\ edge lo hi n (b - 1) <= v <= edge lo hi n b /\ (v < edge lo hi n b \/ v = hi).
Definition middle (lo hi : R) (n k : nat) : R := (edge lo hi n (k - 1) + edge lo hi n k) / 2.

(** Targets and weights of the rows in a bin. *)
Definition bin_members (k : Z) (bins : list Z) (y w : list R) : list qrow :=
  map snd (filter (fun p => Z.eqb (fst p) k) (combine bins (combine y w))).
Definition mean_of (rows : list qrow) : R := sumR (map (fun r => fst r * snd r) rows) / total_weight rows.

(** The range of the predictions. *)
Definition range_of (pred : list R) (lo hi : R) : Prop :=
  In lo pred /\ In hi pred /\ forall p, In p pred -> lo <= p <= hi.

Definition all_equal (w : list R) : Prop := forall a b, In a w -> In b w -> a = b.
Definition binary (y : list R) : Prop := forall v, In v y -> v = 0 \/ v = 1.
(** The distances of the four quantiles from the median in the order 1 sigma below, 1
    sigma above, 2 sigma below, 2 sigma above. *)
Definition brackets (errors : list (option R)) : Prop :=
  exists a b c d, errors = [Some a; Some b; Some c; Some d] /\ c <= a <= 0 /\ 0 <= b <= d.

(** [v] lies at [position] among the ascending values [l], linear between neighbours. *)
Definition lies_at (l : list R) (position v : R) : Prop :=
  exists i a b, INR i <= position < INR i + 1 /\ nth_error l i = Some a /\
    (nth_error l (S i) = Some b \/ S i = length l /\ b = a) /\ v = a + (b - a) * (position - INR i).
(** Quantile of rows of equal weight. *)
Definition even_quantile (level : R) (rows : list qrow) (v : R) : Prop :=
  exists l, Permutation l (map fst rows) /\ StronglySorted Rle l /\ lies_at l (level * INR (length l - 1)) v.
(** The distances are those of the quantiles that enclose 68.27 and 95.45 percent. *)
Definition sigma_errors (quantile : R -> list qrow -> R -> Prop) (rows : list qrow) (errors : list (option R)) : Prop :=
  exists m a b c d, quantile (1 / 2) rows m /\ quantile (15865 / 100000) rows a /\ quantile (84135 / 100000) rows b /\
    quantile (2275 / 100000) rows c /\ quantile (97725 / 100000) rows d /\
    errors = [Some (a - m); Some (b - m); Some (c - m); Some (d - m)].

(** A histogram that shows for each bin with a row, in ascending order, the value
    [value] of its rows at the middle of the bin, and their number or total weight. *)
Definition shows (bins : list Z) (lo hi : R) (y w : list R) (value : list qrow -> R) (h : histogram) : Prop :=
  exists keys, StronglySorted Z.lt keys /\ (forall k, In k keys <-> In k bins) /\
    h_means h = map (fun k => (k, Some (value (bin_members k bins y w)))) keys /\
    h_centres h = map (fun k => middle lo hi 100 (Z.to_nat k)) keys /\
    (all_equal w -> h_counts h = map (fun k => (k, INR (length (bin_members k bins y w)))) keys) /\
    (~ all_equal w -> h_counts h = map (fun k => (k, total_weight (bin_members k bins y w))) keys).

(** ** Smearing *)
(** A distribution on the natural numbers by its cdf. *)
Definition discrete_cdf (F : Z -> R) : Prop :=
  (forall y, (y < 0)%Z -> F y = 0) /\ forall y, F y <= F (y + 1)%Z.
Definition probability (F : Z -> R) (y : nat) : R := F (Z.of_nat y) - F (Z.of_nat y - 1)%Z.
(** [A] holds with probability [m] for a number drawn evenly from [0, 1]: it holds
    below [m] and does not hold above. *)
Definition holds_below (m : R) (A : R -> Prop) : Prop :=
  0 <= m <= 1 /\ forall u, 0 <= u <= 1 -> (u < m -> A u) /\ (m < u -> ~ A u).

(** ** Observers *)
Section After.
Variable step : state -> outcome state.
(** The state after [k] passes. *)
Inductive after : nat -> state -> state -> Prop :=
| after_0 st : after 0 st st
| after_S k st st' st'' : step st = Ok st' -> after k st' st'' -> after (S k) st st''.
End After.
