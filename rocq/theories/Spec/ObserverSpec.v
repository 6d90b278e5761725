(** Vocabulary for observers. *)
From Coq Require Import ZArith List Bool Reals.
From Verif.Model Require Import Train Observers.
Import ListNotations.
Local Open Scope R_scope.

(** What is remembered after a list of calls; [None]: one of them failed. *)
Fixpoint hear {W} (watch : W -> call -> option W) (w : W) (calls : list call) : option W :=
  match calls with
  | [] => Some w
  | e :: r => match watch w e with None => None | Some w' => hear watch w' r end
  end.
(** The end of a training that ends with [r] after the given calls. *)
Definition ends {W} (watch : W -> call -> option W) (w : W) (calls : list call) (r : option (outcome state)) : ending :=
  match hear watch w calls with
  | None => ObserverRaised
  | Some w' => match r with None => MorePasses | Some r => Ended r w' end
  end.

(** Observers that take the arguments they are given and never raise an exception. *)
Definition takes (quantile : bool) {M} (o : observer M) : Prop :=
  (fst (ob_iteration o) <= (if quantile then 8 else 7) <= snd (ob_iteration o))%nat /\
  (fst (ob_feature o) <= 7 <= snd (ob_feature o))%nat.
Definition unheard (quantile : bool) {M} (o : observer M) : Prop :=
  ~ (fst (ob_iteration o) <= (if quantile then 8 else 7) <= snd (ob_iteration o))%nat.
Definition silent {M} (o : observer M) : Prop := forall m e, ob_react o m e <> None.

(** The calls of a training with [n] passes: at the start of each pass, after each group
    trained in it, in their order, and at the end. *)
Definition trained_in (cfg : settings) (features : list feature) (k : nat) : list nat :=
  filter (fun i => match nth_error features i with
                   | Some f => negb (c_hier cfg && Nat.ltb k (c_thier cfg) && negb (f_hier f))
                   | None => false end) (seq 0 (length features)).
Definition pass_calls (cfg : settings) (features : list feature) (k : nat) : list (Z * option nat) :=
  (Z.of_nat k, None) :: map (fun i => (Z.of_nat k, Some i)) (trained_in cfg features k).
Definition schedule (cfg : settings) (features : list feature) (n : nat) : list (Z * option nat) :=
  flat_map (pass_calls cfg features) (seq 0 n) ++ [((-1)%Z, None)].

(** What one observer remembers after a list of calls. *)
Definition remembers {M} (o : observer M) (m : M) (calls : list call) : M :=
  fold_left (fun m e => match ob_react o m e with Some m' => m' | None => m end) calls m.
(** The last call of a training that ends in the state [st]: the loss, the last change of
    the factors, and all feature groups with the parameters of the trained model. *)
Definition final_call (st : state) (e : call) : Prop :=
  e_pass e = (-1)%Z /\ e_feature e = None /\ e_loss e = t_loss st /\ e_delta e = Some (t_delta st) /\
  map fst (e_groups e) = seq 0 (length (t_feats st)) /\
  map (fun g => Some (s_factors (snd g))) (e_groups e) = map s_agg (t_feats st).
