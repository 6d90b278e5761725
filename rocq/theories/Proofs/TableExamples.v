(** Concrete groups of two columns with two bins each. *)
From Coq Require Import ZArith List Bool Reals Lia Lra.
From Verif.Model Require Import Num LexBins Train Regularize BinSmoothers TableSmoothers.
From Verif.Spec Require Import LexSpec RegularizeSpec TableSpec.
From Verif.Proofs Require Import TrainFacts LinkFacts ImportanceFacts TotalFacts LexFacts NeutralizeFacts RegularizeFacts RegularizeExamples TableFacts.
Import ListNotations.
Local Open Scope R_scope.

(** Uncertainties that belong to strongly correlated columns, an effect of the second
    column, and a neutral table. *)
Definition correlated : list R := [1; 9; 9; 1].
Definition no_effect : list R := [0; 0; 0; 0].
Definition second_only : list R := [100; 0; 100; 0].
Definition hundred (j : nat) : R := match j with O => 100 | _ => 0 end.
Definition uneven : list R := [1; 1; 1; 2].
Definition neutral : list R := [2; -2; -2; 1].
Ltac two i := destruct i as [|[|i]]; [| |lia].
Ltac bins := rewrite ?at_bins_nth; cbn [Nat.mul Nat.add nth correlated no_effect second_only hundred uneven neutral].
Lemma correlated_bins : per_bin 2 2 correlated /\ positive_bins 2 2 correlated.
Proof. split; [reflexivity|]. intros i j Hi Hj. two i; two j; bins; lra. Qed.

Lemma second_only_effect : with_effects 2 2 (fun _ => 0) hundred no_effect second_only.
Proof. intros i j Hi Hj. two i; two j; bins; cbn [hundred]; lra. Qed.

Lemma two_tables a b c d u : u = correlated ->
  neutralized_values (two_columns 2 2) u [a; b; c; d] =
  match neutralize_one_dim_influence 5 [[a; b]; [c; d]] n_u with Some (r, _) => Some (concat r) | None => None end.
Proof. intros ->. reflexivity. Qed.

Lemma no_effect_values : neutralized_values (two_columns 2 2) correlated no_effect = Some no_effect.
Proof.
  unfold no_effect. rewrite two_tables by reflexivity.
  rewrite (neutral_unchanged 2 2 n_u (proj1 (proj2 n_tables))); try lia; [reflexivity| | |].
  - split; [reflexivity|]. cbn. intros r [<-|[<-|[]]]; reflexivity.
  - intros i Hi. unfold row_influence, total, entry. two i; cbn [seq map sumR nth n_u]; lra.
  - intros i Hi. unfold column_influence, total, entry. two i; cbn [seq map sumR nth n_u]; lra.
Qed.
Lemma second_first : round n_u [[100; 0]; [100; 0]] (row_sums (weighted [[100; 0]; [100; 0]] n_u)) = [[9 * 8; 8]; [- (8); - (9 * 8)]].
Proof.
  unfold round, sub_rows, sub_cols, weighted, row_sums, col_sums, n_u.
  cbn [map map2 sumR hd length seq nth].
  apply f_equal2; [|apply f_equal2; [|reflexivity]]; (apply f_equal2; [lra|apply f_equal2; [lra|reflexivity]]).
Qed.
Lemma second_next z : round n_u [[9 * z; z]; [- z; - (9 * z)]] (row_sums (weighted [[9 * z; z]; [- z; - (9 * z)]] n_u)) =
  [[9 * (64 / 100 * z); 64 / 100 * z]; [- (64 / 100 * z); - (9 * (64 / 100 * z))]].
Proof. apply n_round; try lra. cbn zeta. repeat apply f_equal2; lra. Qed.
Lemma second_deviation z : 0 < z -> round_deviation n_u [[9 * z; z]; [- z; - (9 * z)]] = 36 * z.
Proof. intros P. rewrite n_deviation by lra. lra. Qed.
Lemma second_values : neutralized_values (two_columns 2 2) correlated second_only =
  Some [18874368 / 1000000; 2097152 / 1000000; - 2097152 / 1000000; - 18874368 / 1000000].
Proof.
  unfold second_only. rewrite two_tables by reflexivity. unfold neutralize_one_dim_influence. rewrite loop_unfold.
  replace (Rltb (1 / 100) 100) with true by (symmetry; apply Rltb_iff; lra). cbn [andb Nat.ltb Nat.leb plus].
  rewrite second_first.
  rewrite loop_unfold, second_deviation by lra. rewrite (proj2 (Rltb_iff _ _)) by lra. cbn [andb Nat.ltb Nat.leb plus].
  rewrite second_next, loop_unfold, second_deviation by lra. rewrite (proj2 (Rltb_iff _ _)) by lra. cbn [andb Nat.ltb Nat.leb plus].
  rewrite second_next, loop_unfold, second_deviation by lra. rewrite (proj2 (Rltb_iff _ _)) by lra. cbn [andb Nat.ltb Nat.leb plus].
  rewrite second_next, loop_unfold. cbn [Nat.ltb Nat.leb]. rewrite andb_false_r. cbn [concat app].
  apply f_equal. apply f_equal2; [lra|]. apply f_equal2; [lra|]. apply f_equal2; [lra|]. apply f_equal2; [lra|reflexivity].
Qed.

(** An effect of the second column alone leaves factors up to 18.8 of 100. *)
Lemma second_effect_left : exists u values values' b y y', per_bin 2 2 u /\ positive_bins 2 2 u /\ per_bin 2 2 values /\ per_bin 2 2 values' /\
  with_effects 2 2 (fun _ => 0) b values values' /\ (forall j, 0 <= b j <= 100) /\
  neutralized_values (two_columns 2 2) u values = Some y /\ neutralized_values (two_columns 2 2) u values' = Some y' /\
  at_bins 2 2 y 0 0 = 0 /\ 18 < at_bins 2 2 y' 0 0.
Proof.
  exists correlated, no_effect, second_only, hundred. eexists. eexists.
  split; [apply correlated_bins|]. split; [apply correlated_bins|]. split; [reflexivity|]. split; [reflexivity|].
  split; [exact second_only_effect|]. split; [intros [|j]; cbn; lra|].
  split; [exact no_effect_values|]. split; [exact second_values|]. split; bins; lra.
Qed.

Lemma uneven_bins : per_bin 2 2 uneven /\ positive_bins 2 2 uneven.
Proof. split; [reflexivity|]. intros i j Hi Hj. two i; two j; bins; lra. Qed.
Lemma neutral_effects : (forall i, (i < 2)%nat -> first_effect 2 2 neutral uneven i = 0) /\ (forall j, (j < 2)%nat -> second_effect 2 2 neutral uneven j = 0).
Proof. split; intros i Hi; unfold first_effect, second_effect, total; cbn [seq map sumR]; two i; bins; lra. Qed.
Lemma neutral_values : neutralized_values (two_columns 2 2) uneven neutral = Some neutral.
Proof.
  transitivity (match neutralize_one_dim_influence 5 [[2; -2]; [-2; 1]] [[1; 1]; [1; 2]] with Some (r, _) => Some (concat r) | None => None end);
    [reflexivity|].
  rewrite (neutral_unchanged 2 2 [[1; 1]; [1; 2]]); try lia; [reflexivity| | | |].
  - split; [reflexivity|]. cbn. intros r [<-|[<-|[]]]; reflexivity.
  - split; [reflexivity|]. cbn. intros r [<-|[<-|[]]]; reflexivity.
  - intros i Hi. unfold row_influence, total, entry. two i; cbn [seq map sumR nth]; lra.
  - intros i Hi. unfold column_influence, total, entry. two i; cbn [seq map sumR nth]; lra.
Qed.
Lemma smoothed_effect : exists u values y, per_bin 2 2 u /\ positive_bins 2 2 u /\ per_bin 2 2 values /\
  (forall i, (i < 2)%nat -> first_effect 2 2 values u i = 0) /\ (forall j, (j < 2)%nat -> second_effect 2 2 values u j = 0) /\
  (forall weights k, (k < 4)%nat ->
     neutralised_2d (weighted_mean_bins None) (two_columns 2 2) weights u values k = Some (nth k y 0)) /\
  second_effect 2 2 y u 0 < 0.
Proof.
  destruct (mean_amount neutral uneven None) as (V & r & EV & PV & Er & Lr & Hr); [reflexivity| | |].
  - intros v [<-|[<-|[<-|[<-|[]]]]]; lra.
  - split; [cbn; lia|]. intros H. specialize (H (-2)). cbn [nth neutral] in H.
    assert (I : In (-2) neutral) by (right; left; reflexivity). specialize (H I).
    rewrite (Rabs_left (-2 - 2)) in H by lra. rewrite (Rabs_right 2) in H by lra. lra.
  - exists uneven, neutral, r. split; [apply uneven_bins|]. split; [apply uneven_bins|]. split; [reflexivity|].
    split; [apply neutral_effects|]. split; [apply neutral_effects|]. split.
    + intros weights k K. unfold neutralised_2d. rewrite neutral_values. unfold weighted_mean_bins. rewrite Er.
      rewrite (nth_map_lt _ _ _ 0) by (rewrite Lr; exact K). reflexivity.
    + assert (T : shrinkage_target neutral uneven None = - 7 / 13).
      { cbn [shrinkage_target]. unfold inverse_variance_mean, total. cbn [length neutral uneven seq map sumR nth]. field. }
      rewrite T in *. pose proof (Hr 0%nat ltac:(cbn; lia)) as H0. pose proof (Hr 2%nat ltac:(cbn; lia)) as H2.
      cbn [neutral uneven nth] in H0, H2. replace (1 ^ 2) with 1 in H0, H2 by ring.
      unfold second_effect, total. cbn [seq map sumR]. bins. cbn [uneven nth].
      assert (C : 0 < V / (1 + V) < 1).
      { split; [apply Rdiv_lt_0_compat; lra|]. apply (Rmult_lt_reg_r (1 + V)); [lra|]. unfold Rdiv. rewrite Rmult_assoc, Rinv_l by lra. lra. }
      set (c := V / (1 + V)) in *. clearbody c. nra.
Qed.

(** Effects of both columns on independent uncertainties. *)
Lemma table_case : exists a b, with_effects 2 2 a b neutral [12; -2; 8; 1] /\
  per_bin 2 2 [12; -2; 8; 1] /\ independent_bins 2 2 [1; 2; 3; 6] /\ positive_bins 2 2 [1; 2; 3; 6] /\
  ~ (forall j, (j < 2)%nat -> b j = 0).
Proof.
  exists (fun _ => 0), (fun j => match j with O => 10 | _ => 0 end). split; [intros i j Hi Hj; two i; two j; bins; lra|].
  split; [reflexivity|]. split.
  - exists (fun i => match i with O => 1 | _ => 3 end), (fun j => match j with O => 1 | _ => 2 end). intros i j Hi Hj. two i; two j; bins; lra.
  - split; [intros i j Hi Hj; two i; two j; bins; lra|]. intros H. specialize (H 0%nat ltac:(lia)). cbn in H. lra.
Qed.

(** The meta-smoother on bins that are cut. *)
Lemma meta_case : prior_expectation_meta (fun _ => 1) 2 (cut_unseen bin_values) (two_columns 2 2) [1; 1; 0; 1] [1; 1; 1; 1] [5; 2; 7; 1] 2%nat = Some 1 /\
  prior_expectation_meta (fun _ => 1) 2 (cut_unseen bin_values) (two_columns 2 2) [1; 1; 0; 1] [1; 1; 1; 1] [5; 2; 7; 1] 1%nat = Some 1 /\
  exists r, prior_expectation_meta (fun _ => 1) 2 (cut_unseen bin_values) (two_columns 2 2) [1; 1; 0; 1] [1; 1; 1; 1] [5; 2; 7; 1] 0%nat = Some r /\ 4 < r < 5.
Proof.
  assert (Z : Reqb 0 0 = true) by (apply Reqb_iff; reflexivity). assert (O1 : Reqb 1 0 = false) by (apply Reqb_false_iff; lra).
  split; [unfold prior_expectation_meta, cut_unseen; cbn [nth nth_error]; rewrite Z; reflexivity|]. split.
  - pose proof (meta_values (fun _ => 1) 2 (cut_unseen bin_values) (two_columns 2 2) [1; 1; 0; 1] [1; 1; 1; 1] [5; 2; 7; 1] 1%nat 1 eq_refl ltac:(lra) ltac:(lra)) as H.
    unfold cut_unseen at 1, bin_values at 1 in H. cbn [nth nth_error] in H. rewrite O1 in H. destruct H as (H & _). apply H.
    rewrite Rabs_right; lra.
  - pose proof (meta_values (fun _ => 1) 2 (cut_unseen bin_values) (two_columns 2 2) [1; 1; 0; 1] [1; 1; 1; 1] [5; 2; 7; 1] 0%nat 1 eq_refl ltac:(lra) ltac:(lra)) as H.
    unfold cut_unseen at 1, bin_values at 1 in H. cbn [nth nth_error] in H. rewrite O1 in H. destruct H as (_ & H).
    destruct H as (r & E & Q & A & _); [rewrite Rabs_right; lra|]. exists r. split; [exact E|]. specialize (A ltac:(lra)). nra.
Qed.
