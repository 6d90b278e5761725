(** Data sets that come out of the binning. *)
From Coq Require Import ZArith NArith QArith Qreals List Bool Reals Lia Lra.
From Verif.Proofs Require Import TrainExamples LinkFacts WholeExamples BinFitExamples PriceFitExamples RefitExamples.
From Verif.Model Require Import Num LexBins Train Predict Link WholeFit BinFit PriceFit Refit Quantile LossModes.
From Verif.Spec Require Import DataSpec PredictSpec InsampleSpec.
Import ListNotations.
Local Open Scope R_scope.

Lemma whole_number z : whole (Fin (inject_Z z)).
Proof. intros _. exists z, (inject_Z z). split; reflexivity. Qed.
Lemma d_one_binned : binned_rows [r_style [c_a]] d_one.
Proof.
  split; [|split].
  - intros s [|[|i]] g I G; cbn in G; try discriminate. injection G as <-. cbn in I. destruct I as [<-|[<-|[]]]; reflexivity.
  - intros g [<-|[]]. cbn. lia.
  - intros s i x I H. cbn in I. destruct I as [<-|[<-|[]]]; destruct i as [|[|i]]; cbn in H; try contradiction;
      destruct H as [<-|[]]; [exact (whole_number 0)|exact (whole_number 1)].
Qed.
Lemma heavy_binned : binned_rows [w_group keep_values] heavy.
Proof.
  split; [|split].
  - intros s [|[|i]] g I G; cbn in G; try discriminate. injection G as <-. cbn in I. destruct I as [<-|[<-|[]]]; reflexivity.
  - intros g [<-|[]]. cbn. lia.
  - intros s i x I H. cbn in I. destruct I as [<-|[<-|[]]]; cbn in H; destruct H as [<-|[]]; [exact (whole_number 0)|exact (whole_number 1)].
Qed.
Lemma mean_heavy_binned : binned_rows [w_group keep_values] (map fst mean_heavy).
Proof. exact heavy_binned. Qed.
Lemma p_heavy_binned : binned_rows (map fst [(u_group, true)]) (map q_row p_heavy).
Proof.
  split; [|split].
  - intros s [|[|i]] g I G; cbn in G; try discriminate. injection G as <-. cbn in I. destruct I as [<-|[<-|[]]]; reflexivity.
  - intros g [<-|[]]. cbn. lia.
  - intros s i x I H. cbn in I. destruct I as [<-|[<-|[]]]; cbn in H; destruct H as [<-|[]]; exact (whole_number 0).
Qed.
Lemma heavy_costs prediction : exists l, mode_costs (AdditiveQuantile (1/2)) prediction (map x_y heavy) (map x_w heavy) = Some l.
Proof.
  cbn [mode_costs]. unfold quantile_costs. cbn [heavy map w_row x_w sumR].
  rewrite (proj2 (Reqb_false_iff _ _)) by lra. eexists. reflexivity.
Qed.
Lemma d_one_visits : visits d_one <> 0.
Proof.
  cbn. destruct (Req_EM_T 1 0); [lra|]. destruct (Req_EM_T (-1) 0); lra.
Qed.

(** Training of the location model for counts with a negative prediction: a smoother that
    exaggerates. *)
Definition two_counts : list WholeFit.sample := [w_row 0 0 1; w_row 1 2 1].
Definition exaggerated : group := w_group (fun _ _ _ _ b => nth_error [-2; 1] b).
Lemma two_counts_binned : binned_rows [exaggerated] two_counts.
Proof.
  split; [|split].
  - intros s [|[|i]] g I G; cbn in G; try discriminate. injection G as <-. cbn in I. destruct I as [<-|[<-|[]]]; reflexivity.
  - intros g [<-|[]]. cbn. lia.
  - intros s i x I H. cbn in I. destruct I as [<-|[<-|[]]]; cbn in H; destruct H as [<-|[]]; [exact (whole_number 0)|exact (whole_number 1)].
Qed.
Lemma counts_run gm bppf erfinv bad : exists t,
  whole_fit gm bppf erfinv bad LocPoissonRegressor false [exaggerated] w_cfg ex_rate 1 two_counts = Trained t /\
  o_loss t = ((-999/1000) * (-999/1000) + 1/1000 * (1/1000)) / 2 /\
  whole_predict LocPoissonRegressor false t two_counts = [0; 2001/1000].
Proof.
  assert (Sc : kind_scale LocPoissonRegressor (map x_y two_counts) (map x_w two_counts) = Some (1001/1000)).
  { cbn. unfold global_scale, weighted_mean. cbn. rewrite (proj2 (Reqb_false_iff _ _)) by lra. cbn. f_equal. field. }
  set (p0 := {| p_factors := [1001/1000; 1001/1000]; p_exponents := zeros 2 |}).
  assert (M : exists m, snd (new_factors (fun i _ p => map (estimate_value bad) (group_estimates gm bppf erfinv LocPoissonRegressor [bind_group two_counts 0 exaggerated] (map x_y two_counts) (map x_w two_counts) i p))
    (fun i _ p => group_smoother gm bppf erfinv bad LocPoissonRegressor [exaggerated] [bind_group two_counts 0 exaggerated] (map x_y two_counts) (map x_w two_counts) i p)
    (kind_calibration LocPoissonRegressor [bind_group two_counts 0 exaggerated] (map x_w two_counts)) ex_rate 0 (bind_group two_counts 0 exaggerated) (init_fstate (bind_group two_counts 0 exaggerated)) 0 p0) = [-2; 1; m]).
  { unfold new_factors. cbv zeta. change (f_finite (bind_group two_counts 0 exaggerated)) with 2%nat.
    change (f_mnl (bind_group two_counts 0 exaggerated)) with false. cbn iota. cbn [seq map s_zero init_fstate].
    unfold group_smoother. cbn [nth_error exaggerated w_group g_smoother snd kind_calibration app]. unfold ex_rate. rewrite ?Rmult_1_l. eexists. reflexivity. }
  destruct M as (m & M).
  eexists. split; [|split].
  - eapply (one_pass gm bppf erfinv bad LocPoissonRegressor false exaggerated ex_rate two_counts (1001/1000) _ _ p0 [-999/1000; 2001/1000] Sc eq_refl eq_refl).
    + exact M.
    + cbn [p0 p_factors]. change (f_lex (bind_group two_counts 0 exaggerated)) with [0; 1]%nat. cbn. repeat (apply f_equal2; [lra|]). reflexivity.
    + cbn. unfold squared_loss. cbn. lra.
  - cbn. unfold squared_loss. cbn. field.
  - comp. repeat (real_step; comp). repeat (apply f_equal2; [lra|]). reflexivity.
Qed.
Theorem counts_differ : exists gs D, binned_rows gs D /\ forall gm bppf erfinv bad, exists t,
  whole_fit gm bppf erfinv bad LocPoissonRegressor false gs w_cfg ex_rate 1 D = Trained t /\
  o_loss t <> mean_deviation LocPoissonRegressor D (whole_predict LocPoissonRegressor false t D).
Proof.
  exists [exaggerated], two_counts. split; [exact two_counts_binned|]. intros gm bppf erfinv bad.
  destruct (counts_run gm bppf erfinv bad) as (t & T & L & P). exists t. split; [exact T|]. rewrite L, P.
  assert (E : mean_deviation LocPoissonRegressor two_counts [0; 2001/1000] = 1/2000000) by (unfold mean_deviation; cbn; field). rewrite E. lra.
Qed.
