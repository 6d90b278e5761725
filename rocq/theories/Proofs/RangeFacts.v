(** Range of the predictions. *)
From Coq Require Import ZArith List Bool Reals Lia Lra.
From Verif.Model Require Import Num LexBins Train Predict Link WholeFit.
From Verif.Spec Require Import PredictSpec DataSpec.
From Verif.Proofs Require Import NeutralFacts.
Import ListNotations.
Local Open Scope R_scope.

Lemma unlinked_range k s : in_range k (kind_output k s).
Proof.
  destruct k; cbn; auto; try apply exp_pos; [|unfold Rltb; destruct (Rlt_dec 0 s); lra]. pose proof (exp_pos (- s)) as E.
  split; [apply Rdiv_lt_0_compat; lra|]. apply Rmult_lt_reg_r with (1 + exp (- s)); [lra|].
  unfold Rdiv. rewrite Rmult_assoc, Rinv_l by lra. lra.
Qed.
Lemma linked_column_length k prior X l : linked_column k prior X = Some l -> length l = length (map x_bins X).
Proof. unfold linked_column. destruct prior; [|discriminate]. intro E. injection E as <-. unfold linked_prior. rewrite !map_length. reflexivity. Qed.
Theorem whole_range k prior m X :
  length (whole_predict k prior m X) = length X /\ forall v, In v (whole_predict k prior m X) -> in_range k v.
Proof.
  unfold whole_predict. split.
  - destruct (predict_rows (kind_output k) (o_scale m) (o_offset m) (o_groups m) (linked_column k prior X) (map x_bins X)) as [L _];
      [intros l E; eapply linked_column_length; eauto|]. rewrite L. apply map_length.
  - intros v I. unfold cb_predict in I. apply in_map_iff in I. destruct I as (s & <- & _). apply unlinked_range.
Qed.
