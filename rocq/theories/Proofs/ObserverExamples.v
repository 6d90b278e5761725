(** An observer that writes down what it is shown. *)
From Coq Require Import ZArith List Bool Reals Lra Lia.
From Verif.Proofs Require Import TrainExamples WatchFacts ObserverProofs.
From Verif.Model Require Import Train Observers.
From Verif.Spec Require Import ObserverSpec.
Import ListNotations.
Local Open Scope R_scope.

(** For each call: the pass, the feature group trained and the groups of the state. *)
Definition recorder : observer (list (Z * option nat * list nat)) :=
  plotting_observer (fun m e => Some (m ++ [(e_pass e, e_feature e, map fst (e_groups e))])).
Lemma recorder_good quantile : takes quantile recorder /\ silent recorder.
Proof. split; [apply plotting_takes|]. intros m e. discriminate. Qed.

Lemma recorded_run : 
  match observed_fit (ex_cfg true true true 1 2) [ex_feature false false; ex_feature true false] (ex_calc 0 0) ex_smooth ex_id ex_rate flat_loss
          (tell_all false) 6 ex_prior [(recorder, []); (recorder, [])] with
  | Ended (Ok st) os => Some (t_iter st, map snd os)
  | _ => None
  end =
  Some (2%nat, repeat [(0%Z, None, [1%nat]); (0%Z, Some 1%nat, [1%nat]); (1%Z, None, [0; 1]%nat); (1%Z, Some 0%nat, [0; 1]%nat);
                   (1%Z, Some 1%nat, [0; 1]%nat); ((-1)%Z, None, [0; 1]%nat)] 2).
Proof. pose proof ln2_quarter. pose proof ln_limits_1. evals. reflexivity. Qed.

Lemma base_run quantile :
  (exists st, fit_main (ex_cfg true true false 0 2) [ex_feature false false] (ex_calc (1/4) (1/8)) ex_smooth ex_id ex_rate flat_loss 6 ex_prior = Some (Ok st)) /\
  observed_fit (ex_cfg true true false 0 2) [ex_feature false false] (ex_calc (1/4) (1/8)) ex_smooth ex_id ex_rate flat_loss
          (tell_all quantile) 6 ex_prior [(@base_observer unit, tt)] = ObserverRaised.
Proof.
  split; [exists g2; exact g_run|]. unfold observed_fit. cbn [observed_loop]. rewrite g_c0. unfold observed_iteration. cbn [tell_all]. unfold tell, accepts, passed. cbn.
  destruct quantile; reflexivity.
Qed.
