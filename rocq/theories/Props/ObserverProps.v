(** Property C119: observers follow a training without influencing it. *)
From Coq Require Import ZArith List Bool Reals.
From Verif.Model Require Import Train Observers.
From Verif.Spec Require Import ObserverSpec.
From Verif.Proofs Require Import TrainExamples ObserverProofs ObserverExamples.
Import ListNotations.
Local Open Scope R_scope.

(** ** C119: the training is the one without observers, and each observer hears the same
    calls whatever the others are. Missing from the full property: observers must accept
    the arguments passed, which the documented interface does not do. *)
Theorem C119_no_influence_partial :
  forall (cfg : settings) (features : list feature) (calc : nat -> nat -> preds -> list R)
         (smooth : nat -> nat -> preds -> list R -> nat -> option R) (calib : nat -> list R -> list R) (rate : nat -> nat -> R)
         (loss : preds -> R) (M : Type) (quantile : bool) (fuel : nat) (p : preds),
  exists calls, forall os : list (observer M * M), (forall o m, In (o, m) os -> takes quantile o /\ silent o) ->
  observed_fit cfg features calc smooth calib rate loss (tell_all quantile) fuel p os =
  match fit_main cfg features calc smooth calib rate loss fuel p with
  | None => MorePasses
  | Some r => Ended r (map (fun om => (fst om, remembers (fst om) (snd om) calls)) os)
  end.
Proof. exact @no_influence. Qed.
Print Assumptions C119_no_influence_partial.

(** The calls: the loss they show is that of the predictions they show; while only the
    hierarchical groups are trained only these are shown; the calls of a training that
    succeeds follow the schedule, and the last one shows the trained model. *)
Theorem C119_calls :
  forall (cfg : settings) (features : list feature) (calc : nat -> nat -> preds -> list R)
         (smooth : nat -> nat -> preds -> list R -> nat -> option R) (calib : nat -> list R -> list R) (rate : nat -> nat -> R)
         (loss : preds -> R) (fuel : nat) (p : preds),
  exists calls,
  (forall W (watch : W -> call -> option W) w,
     observed_fit cfg features calc smooth calib rate loss watch fuel p w =
     ends watch w calls (fit_main cfg features calc smooth calib rate loss fuel p)) /\
  (forall e, In e calls -> e_loss e = loss (e_preds e)) /\
  (forall e i s, In e calls -> c_hier cfg = true -> (0 <= e_pass e < Z.of_nat (c_thier cfg))%Z -> In (i, s) (e_groups e) ->
     exists f, nth_error features i = Some f /\ f_hier f = true) /\
  (forall st, fit_main cfg features calc smooth calib rate loss fuel p = Some (Ok st) ->
     map (fun e => (e_pass e, e_feature e)) calls = schedule cfg features (t_iter st) /\
     exists front e, calls = front ++ [e] /\ final_call st e).
Proof. exact observed_calls. Qed.
Print Assumptions C119_calls.

(** An observer whose [observe_iterations] does not accept the arguments passed, such as
    [BaseObserver] itself, makes every training fail. *)
Theorem C119_documented_interface_refuted :
  (forall (cfg : settings) (features : list feature) (calc : nat -> nat -> preds -> list R)
          (smooth : nat -> nat -> preds -> list R -> nat -> option R) (calib : nat -> list R -> list R) (rate : nat -> nat -> R)
          (loss : preds -> R) (M : Type) (quantile : bool) (fuel : nat) (p : preds) (os : list (observer M * M)) (o : observer M) (m : M) (st : state)
          (os' : list (observer M * M)),
   In (o, m) os -> unheard quantile o ->
   observed_fit cfg features calc smooth calib rate loss (tell_all quantile) fuel p os <> Ended (Ok st) os') /\
  (forall M quantile, unheard quantile (@base_observer M)).
Proof. exact (conj (@unheard_fails) (@base_unheard)). Qed.
Print Assumptions C119_documented_interface_refuted.

(** Two observers that write down the calls of a training with two passes, the first of
    them with the second group alone. *)
Example C119_case :
  takes false recorder /\ silent recorder /\
  match observed_fit (ex_cfg true true true 1 2) [ex_feature false false; ex_feature true false] (ex_calc 0 0) ex_smooth ex_id ex_rate flat_loss
          (tell_all false) 6 ex_prior [(recorder, []); (recorder, [])] with
  | Ended (Ok st) os => Some (t_iter st, map snd os)
  | _ => None
  end =
  Some (2%nat, repeat [(0%Z, None, [1%nat]); (0%Z, Some 1%nat, [1%nat]); (1%Z, None, [0; 1]%nat); (1%Z, Some 0%nat, [0; 1]%nat);
                   (1%Z, Some 1%nat, [0; 1]%nat); ((-1)%Z, None, [0; 1]%nat)] 2).
Proof. exact (conj (proj1 (recorder_good false)) (conj (proj2 (recorder_good false)) recorded_run)). Qed.

(** A training that succeeds alone and fails with a [BaseObserver]. *)
Example C119_base_observer_case : forall quantile,
  (exists st, fit_main (ex_cfg true true false 0 2) [ex_feature false false] (ex_calc (1/4) (1/8)) ex_smooth ex_id ex_rate flat_loss 6 ex_prior = Some (Ok st)) /\
  observed_fit (ex_cfg true true false 0 2) [ex_feature false false] (ex_calc (1/4) (1/8)) ex_smooth ex_id ex_rate flat_loss
          (tell_all quantile) 6 ex_prior [(@base_observer unit, tt)] = ObserverRaised.
Proof. exact base_run. Qed.
