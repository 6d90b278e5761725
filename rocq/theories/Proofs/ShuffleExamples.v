(** The two-row pipeline with its rows swapped. *)
From Coq Require Import ZArith NArith QArith List Bool Reals Permutation.
From Verif.Proofs Require Import TrainExamples WholeExamples RefitExamples PipeExamples.
From Verif.Model Require Import Num Frames LexBins Train WholeFit Refit Pipe.
From Verif.Spec Require Import FrameSpec ShuffleSpec.
Import ListNotations.

Lemma shuffle_example : forall gm bppf erfinv bad,
  treats_rows_alike r_all /\ one_dimension_each r_style /\ table (raw one_one) /\ order_of_rows 2 [1; 0]%nat /\
  take_rows [1; 0]%nat (raw one_one) <> raw one_one /\
  (exists P1, pipe_fit gm bppf erfinv bad g_kind (Some c_w) None w_cfg ex_rate r_all r_style 1 (pipe only_a) (raw one_one) [1; -1]%R = (None, P1) /\
     pipe_predict g_kind (Some c_w) None P1 (raw one_one) = Some [1 / 2; - (1 / 2)]%R).
Proof.
  intros gm bppf erfinv bad. split; [intros T T' _; reflexivity|]. split; [intro g; reflexivity|]. split; [exact (raw_table one_one eq_refl)|].
  split; [apply perm_swap|]. split; [discriminate|]. apply pipe_runs.
Qed.
