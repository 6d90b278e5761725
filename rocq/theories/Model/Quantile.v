(** Model of the quantile helpers of utils.py and of the loss-minimising modes of
    generic_loss.py. Targets, predictions and weights are finite. *)
From Coq Require Import ZArith List Bool Reals.
From Verif.Model Require Import Train.
Import ListNotations.
Local Open Scope R_scope.

(** [quantile_costs] (generic_loss.py:338-346); [None]: division by a zero sum. *)
Definition pinball (quantile p y : R) : R :=
  (if Rltb y p then 1 else 0) * (1 - quantile) * (p - y) + (if Rleb p y then 1 else 0) * quantile * (y - p).
Definition quantile_costs (prediction y weights : list R) (quantile : R) : option R :=
  match y with
  | [] => Some 0
  | _ => if Reqb (sumR weights) 0 then None
         else Some (sumR (map2 Rmult (map2 (pinball quantile) prediction y) weights) / sumR weights)
  end.

(** A row holds target and weight. *)
Definition qrow : Type := (R * R)%type.
(** The targets whose running sum of weights reaches the cutoff. *)
Fixpoint reaching (acc cutoff : R) (rows : list qrow) : list R :=
  match rows with
  | [] => []
  | (y, w) :: r => if Rleb cutoff (acc + w) then y :: reaching (acc + w) cutoff r else reaching (acc + w) cutoff r
  end.
Definition min_of (l : list R) : option R := match l with [] => None | x :: r => Some (fold_left Rmin r x) end.

Section Sorting.
(** The sort of pandas or numpy by target; ties in any order. *)
Variable sort : list qrow -> list qrow.

(** [_weighted_quantile_of_dataframe] (utils.py:591-598); [None]: no rows. *)
Definition weighted_quantile (quantile : R) (rows : list qrow) : option R :=
  let x := sort rows in
  let cutoff := sumR (map snd x) * quantile in
  match reaching 0 cutoff x with
  | v :: _ => Some v
  | [] => min_of (map fst x)
  end.
(** [_weighted_median_of_dataframe] (utils.py:613-619). *)
Definition weighted_median (rows : list qrow) : option R :=
  let x := sort rows in
  let cutoff := sumR (map snd x) / 2 in
  match reaching 0 cutoff x with
  | v :: _ => Some v
  | [] => min_of (map fst x)
  end.

(** The keys of [df.groupby]: sorted and without repetition. *)
Fixpoint insert_key (k : Z) (l : list Z) : list Z :=
  match l with
  | [] => [k]
  | a :: r => if Z.ltb k a then k :: l else if Z.eqb k a then l else a :: insert_key k r
  end.
Definition group_keys (bins : list Z) : list Z := fold_right insert_key [] bins.
(** The rows of one group, in their order. *)
Fixpoint group_rows (k : Z) (bins : list Z) (rows : list qrow) : list qrow :=
  match bins, rows with
  | b :: bs, r :: rs => if Z.eqb b k then r :: group_rows k bs rs else group_rows k bs rs
  | _, _ => []
  end.
(** [calc_weighted_quantile] (utils.py:503-505): index and value. *)
Definition calc_weighted_quantile (bins : list Z) (rows : list qrow) (quantile : R) : list (Z * option R) :=
  map (fun k => (k, weighted_quantile quantile (group_rows k bins rows))) (group_keys bins).

(** [int] of a float. *)
Definition trunc (x : R) : Z := if Rleb 0 x then Int_part x else (- Int_part (- x))%Z.
(** [np.where(a == v)[0]]. *)
Definition positions (v : R) (l : list R) : list nat :=
  filter (fun i => Reqb (nth i l 0) v) (seq 0 (length l)).
(** [continuous_quantile_from_discrete_pdf] (utils.py:1046-1061); [None]: IndexError. *)
Definition continuous_quantile (rows : list qrow) (quantile : R) : option R :=
  let x := sort rows in
  let quantile_index := sumR (map snd rows) * quantile in
  match reaching 0 quantile_index x with
  | [] => None
  | v :: _ =>
      let all := positions v (map fst x) in
      let low := hd 0%nat all in
      let high := last all 0%nat in
      Some (if Nat.ltb low high
            then v + (IZR (trunc quantile_index) - INR low) / (INR high - INR low)
            else v)
  end.
End Sorting.

(** [calc_parameters] of [CBGenericLoss] (generic_loss.py:68-97). [split_bins]: the
    rows, already sorted by bin, split where the bin changes ([np.unique], [np.split]). *)
Section GenericLoss.
Context {row : Type}.
Fixpoint split_bins (rows : list (nat * row)) : list (nat * list row) :=
  match rows with
  | [] => []
  | (b, r) :: rest =>
      match split_bins rest with
      | (b', g) :: gs => if Nat.eqb b b' then (b, r :: g) :: gs else (b, [r]) :: (b', g) :: gs
      | [] => [(b, [r])]
      end
  end.
(** [list.insert]. *)
Definition insert_at {A} (i : nat) (x : A) (l : list A) : list A := firstn i l ++ x :: skipn i l.
(** [empty] lists the bins without rows in the iteration order of the set. *)
Definition bin_lists (sorted : list (nat * row)) (empty : list nat) : list (list row) :=
  fold_left (fun l i => insert_at i [] l) empty (map snd (split_bins sorted)).
(** [optimise] is [optimization] without its uncertainty. *)
Definition raw_parameters (optimise : list row -> R) (sorted : list (nat * row)) (empty : list nat) : list R :=
  map optimise (bin_lists sorted empty).
End GenericLoss.

(** The logarithm of the parameters unless the neutral factor is zero
    (generic_loss.py:92-96); [None]: NaN. *)
Definition factor_epsilon : R := 1 / 100000.
Definition log_parameter (neutral_factor p : R) : option R :=
  if Reqb neutral_factor 0 then Some p
  else let p := if Rltb (Rabs p) factor_epsilon then factor_epsilon else p in
       if Rltb 0 p then Some (ln p) else None.

(** [optimization] (generic_loss.py:120-122): [minimize] takes the objective and the
    start. *)
Record sample := { s_y : R; s_pred : R; s_w : R }.
Definition model_multiplicative (param : R) (yhat : list R) : list R := map (fun v => param * v) yhat.
Definition model_additive (param : R) (yhat : list R) : list R := map (fun v => param + v) yhat.
Definition objective (model : R -> list R -> list R) (costs : list R -> list R -> list R -> option R)
    (rows : list sample) (param : R) : option R :=
  costs (model param (map s_pred rows)) (map s_y rows) (map s_w rows).
Definition optimization (minimize : (R -> option R) -> R -> R) model costs (neutral_factor : R) (rows : list sample) : R :=
  minimize (objective model costs rows) neutral_factor.
