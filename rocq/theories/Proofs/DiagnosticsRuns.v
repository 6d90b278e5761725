(** Histograms of two rows, and an observed training. *)
From Coq Require Import ZArith List Bool Reals Lia Lra Sorted Permutation.
From Verif.Model Require Import Train Quantile Dispersion Diagnostics.
From Verif.Spec Require Import QuantileSpec DiagnosticsSpec.
From Verif.Proofs Require Import TrainFacts TrainExamples LinkFacts QuantileFacts GenericFacts DiagnosticsFacts ObserverFacts.
Import ListNotations.
Local Open Scope R_scope.

Lemma hundredth n : INR n * ((1 - 0) / INR 100) = INR n / 100.
Proof. replace (INR 100) with 100 by (rewrite INR_IZR_INZ; reflexivity). lra. Qed.
Lemma two_bins : map (digitize (linspace 0 1 (100 + 1))) [0; 1] = [1; 100]%Z.
Proof.
  cbn [map].
  destruct (digitize_part 0 1 100 0 ltac:(lia) ltac:(lra)) as (a & -> & A & B & C).
  destruct (digitize_part 0 1 100 1 ltac:(lia) ltac:(lra)) as (b & -> & A' & B' & C').
  unfold edge in *. rewrite !hundredth in *.
  assert (a = 1)%nat. { destruct (Nat.eq_dec (a - 1) 0) as [E|E]; [lia|]. assert (1 <= INR (a - 1)) by (apply (le_INR 1); lia). lra. }
  assert (b = 100)%nat. { destruct (Nat.eq_dec b 100) as [E|E]; [exact E|]. assert (L : INR b <= INR 99) by (apply le_INR; lia).
    replace (INR 99) with 99 in L by (rewrite INR_IZR_INZ; reflexivity). lra. }
  subst. reflexivity.
Qed.
Lemma two_range : min_of [0; 1] = Some 0 /\ max_of [0; 1] = Some 1.
Proof. cbn. rewrite Rmin_left, Rmax_right by lra. split; reflexivity. Qed.

Lemma two_histogram sort y w q : in_sample_histograms sort y [0; 1] w q =
  let bins := [1; 100]%Z in
  let rows := combine y w in
  let stats := calc_means_medians sort bins rows in
  let means := match q with
               | Some q => calc_weighted_quantile sort bins rows q
               | None => map (fun e => (fst e, b_mean (snd e))) stats
               end in
  let errors := match q with
                | Some _ => None
                | None => Some (map (fun e => (fst e, b_errors (snd e))) stats)
                end in
  Some {| h_means := means;
          h_centres := map (middle 0 1 100) (filter (fun k => has_mean means (Z.of_nat k)) (seq 1 100));
          h_errors := if forallb (fun v => Reqb v 0 || Reqb v 1) y then None else errors;
          h_counts := map (fun e => (fst e, b_count (snd e))) stats |}.
Proof.
  unfold in_sample_histograms, calc_linear_bins. destruct two_range as [-> ->]. rewrite two_bins. rewrite centres_middle by lia.
  cbv zeta. rewrite keep_map_seq. reflexivity.
Qed.

Lemma zero_weight_run sort : exists h, in_sample_histograms sort [1; 2] [0; 1] [0; 1] None = Some h /\
  h_means h = [(1%Z, None); (100%Z, Some 2)] /\ h_centres h = [middle 0 1 100 100].
Proof.
  rewrite two_histogram. cbv zeta. eexists. split; [reflexivity|]. cbn [h_means h_centres].
  assert (M : map (fun e => (fst e, b_mean (snd e))) (calc_means_medians sort [1; 100]%Z (combine [1; 2] [0; 1])) =
    [(1%Z, None); (100%Z, Some 2)]).
  { unfold calc_means_medians. cbn [combine map one_weight forallb snd].
    rewrite (proj2 (Reqb_false_iff 0 1)) by lra. cbn [andb].
    change (group_keys [1; 100]%Z) with [1; 100]%Z. cbn [map fst snd]. f_equal; [f_equal|f_equal; f_equal].
    - cbn [group_rows Z.eqb Pos.eqb weighted_stats b_mean]. unfold weighted_mean_of. cbn [map snd sumR].
      rewrite (proj2 (Reqb_iff _ _)) by lra. reflexivity.
    - cbn [group_rows Z.eqb Pos.eqb weighted_stats b_mean]. unfold weighted_mean_of. cbn [map snd fst sumR].
      rewrite (proj2 (Reqb_false_iff _ _)) by lra. f_equal. field. }
  rewrite M. split; [reflexivity|]. reflexivity.
Qed.
Lemma proper_run sort : exists h, in_sample_histograms sort [3; 2] [0; 1] [1; 4] None = Some h /\
  h_means h = [(1%Z, Some 3); (100%Z, Some 2)] /\ h_centres h = [middle 0 1 100 1; middle 0 1 100 100] /\
  h_counts h = [(1%Z, 1); (100%Z, 4)].
Proof.
  rewrite two_histogram. cbv zeta. eexists. split; [reflexivity|]. cbn [h_means h_centres h_counts].
  unfold calc_means_medians. cbn [combine map one_weight forallb snd].
  rewrite (proj2 (Reqb_false_iff 1 4)) by lra. cbn [andb].
  change (group_keys [1; 100]%Z) with [1; 100]%Z. cbn [map fst snd group_rows Z.eqb Pos.eqb weighted_stats b_mean b_count sumR].
  unfold weighted_mean_of. cbn [map snd fst sumR]. rewrite !(proj2 (Reqb_false_iff _ _)) by lra.
  split; [f_equal; [f_equal; f_equal; field|f_equal; f_equal; f_equal; field]|].
  split; [reflexivity|]. f_equal; [f_equal; lra|f_equal; f_equal; lra].
Qed.

(** ** A training of two iterations. *)
Lemma g_observed : exists st, fit_main gcfg gfeats (ex_calc (1/4) (1/8)) ex_smooth ex_id ex_rate flat_loss 6 ex_prior = Some (Ok st) /\
  gfeats <> [] /\ t_iter st = 2%nat.
Proof. eexists. split; [apply g_run|]. split; [discriminate|reflexivity]. Qed.
