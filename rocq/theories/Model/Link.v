(** Model of cyclic_boosting/link.py, learning_rate.py, the baseline prediction
    of base.py and the outputs of classification.py. Numbers are reals; [None] is
    a float that is not finite. *)
From Coq Require Import List Bool Reals.
From Verif.Model Require Import Num LexBins Train Predict.
Import ListNotations.
Local Open Scope R_scope.

Inductive link := Log | Logit | Identity.

(** [is_in_range] (link.py:51-52, 70-71, 95-96). *)
Definition is_in_range (l : link) (m : list R) : bool :=
  match l with
  | Log => forallb (fun x => Rltb 0 x) m
  | Logit => forallb (fun p => Rleb 0 p && Rleb p 1) m
  | Identity => true
  end.

(** [link_func] on one number (link.py:54-61, 73-80, 98-100): log(0) and
    log(p / 0) are infinite, the logarithm of a negative number is NaN. *)
Definition link_func (l : link) (m : R) : option R :=
  match l with
  | Log => if Rltb 0 m then Some (ln m) else None
  | Logit => if Rltb 0 m && Rltb m 1 then Some (ln (m / (1 - m))) else None
  | Identity => Some m
  end.

(** [unlink_func] on one number (link.py:42-49, 82-89, 102-104). *)
Definition unlink_func (l : link) (v : R) : R :=
  match l with
  | Log => exp v
  | Logit => 1 / (1 + exp (- v))
  | Identity => v
  end.

(** [constant_learn_rate_one], [linear_learn_rate], [logistic_learn_rate],
    [half_linear_learn_rate] (learning_rate.py:8-87). *)
Definition constant_learn_rate_one (iteration : nat) (maximal : R) : R := 1.
Definition linear_learn_rate (iteration : nat) (maximal : R) : R := INR iteration * (1 / maximal).
Definition logistic_learn_rate (iteration : nat) (maximal : R) : R :=
  let saturation := 999999999 / 1000000000 in
  let x_t := maximal / ln ((1 - saturation) / (1 + saturation)) in
  (1 / (1 + exp (INR iteration / x_t)) - 1 / 2) * 2.
Definition half_linear_learn_rate (iteration : nat) (maximal : R) : R :=
  Rmin (linear_learn_rate iteration (maximal * (1 / 2))) 1.

(** [learning_rate] (base.py:348-350) in iteration [it], counted from 0. *)
Definition learning_rate (learn_rate : nat -> R -> R) (maximal_iterations it : nat) : R :=
  learn_rate (it + 1)%nat (INR maximal_iterations).

(** [np.sum(y * w) / np.sum(w)]; [None] if the weights sum to zero. *)
Definition weighted_mean (y w : list R) : option R :=
  if Reqb (sumR w) 0 then None else Some (sumR (map2 Rmult y w) / sumR w).

(** [global_scale_link_] (base.py:407-408). *)
Definition global_scale (l : link) (y w : list R) : option R :=
  match weighted_mean y w with Some m => link_func l (m + 1 / 1000) | None => None end.

(** [prior_pred_link_offset_] (base.py:410-433); [prior] is the prior prediction
    column. *)
Fixpoint finite_values (prior : list (option R)) (w : list R) : list R :=
  match prior, w with
  | Some p :: r, _ :: ws => p :: finite_values r ws
  | None :: r, _ :: ws => finite_values r ws
  | _, _ => []
  end.
Fixpoint finite_weights (prior : list (option R)) (w : list R) : list R :=
  match prior, w with
  | Some _ :: r, x :: ws => x :: finite_weights r ws
  | None :: r, _ :: ws => finite_weights r ws
  | _, _ => []
  end.
Definition link_option (l : link) (m : option R) : option R :=
  match m with Some x => link_func l x | None => None end.
Definition prior_offset (l : link) (scale : R) (prior : list (option R)) (w : list R) : R :=
  match link_option l (weighted_mean (finite_values prior w) (finite_weights prior w)) with
  | Some v => scale - v
  | None => scale
  end.

(** The linked prior prediction column of [_get_prior_predictions]
    (base.py:450-451). *)
Definition linked_prior (l : link) (prior : list (option R)) : list (option R) := map (link_option l) prior.

(** [boost_weights] (classification.py:53-56) of one row. *)
Definition epsilon : R := 1 / 1000000000000.
Definition boost_weight (y prediction : R) : R :=
  let p1 := if Reqb prediction 0 then epsilon else prediction in
  let p2 := if Reqb p1 1 then 1 - epsilon else p1 in
  if Reqb y 0 then p2 else 1 - p2.

(** [predict_proba] and [predict] of the classifier (classification.py:140-146)
    on the scores in link space. *)
Definition predict_proba (scores : list R) : list (list R) :=
  map (fun s => [1 - unlink_func Logit s; unlink_func Logit s]) scores.
Definition predict_class (scores : list R) : list R :=
  map (fun s => if Rltb (1 / 2) (unlink_func Logit s) then 1 else 0) scores.

(** [_check_y] of the regressors and of the classifier (regression.py:69-74,
    classification.py:66-72): [true] if the target is accepted. *)
Definition check_y_regressor (y : list R) : bool := forallb (fun v => Rleb 0 v) y.
Definition check_y_classifier (y : list R) : bool := forallb (fun v => Reqb v 0 || Reqb v 1) y.
