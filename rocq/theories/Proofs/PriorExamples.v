(** Trainings with prior predictions. *)
From Coq Require Import ZArith NArith QArith List Bool Reals Lra.
From Verif.Proofs Require Import TrainExamples LinkFacts GenericFacts WholeExamples BinFitExamples PriceFitExamples PriorFacts.
From Verif.Model Require Import Num LexBins Train Predict Link Quantile LossModes Price WholeFit BinFit PriceFit BinSmoothers.
From Verif.Spec Require Import PriorSpec.
Import ListNotations.
Local Open Scope R_scope.

(** The prior prediction 2 for all rows. *)
Definition heavy_prior : list sample := map (given 2) heavy.
Definition p_heavy_prior : list price_sample := map (other_price (given 2)) p_heavy.
Lemma heavy_same_prior : all_priors 2 heavy_prior /\ prior_weight heavy_prior <> 0 /\ usable_prior Identity heavy_prior.
Proof.
  assert (W : prior_weight heavy_prior <> 0) by (cbn; lra). split; [|split; [exact W|split; [exact W|exact I]]].
  intros s J. cbn in J. destruct J as [<-|[<-|[]]]; reflexivity.
Qed.
Lemma p_heavy_same_prior : all_priors 2 (map q_row p_heavy_prior) /\ prior_weight (map q_row p_heavy_prior) <> 0 /\
  usable_prior Log (map q_row p_heavy_prior).
Proof.
  assert (W : prior_weight (map q_row p_heavy_prior) <> 0) by (cbn; lra). split; [|split; [exact W|split; [exact W|]]].
  - intros s J. cbn in J. destruct J as [<-|[<-|[]]]; reflexivity.
  - cbn. lra.
Qed.
Lemma identity_linked p : link_func Identity p <> None.
Proof. discriminate. Qed.
Lemma heavy_prior_fit gm bppf erfinv bad : exists t,
  whole_fit gm bppf erfinv bad LocationRegressor true [w_group explicit_mean] w_cfg ex_rate 1 heavy_prior = Trained t.
Proof.
  destruct (whole_given gm bppf erfinv bad _ _ _ _ _ 2 _ _ (heavy_fit gm bppf erfinv bad)) as (t & E & _).
  exists t. destruct heavy_same_prior as (H & W & _).
  rewrite (proj1 (whole_constant gm bppf erfinv bad LocationRegressor _ _ _ _ 2 heavy_prior ltac:(discriminate) (identity_linked 2) W H)).
  exact E.
Qed.
Lemma as_is_by_position : by_position as_is.
Proof. intros A B f l. reflexivity. Qed.
Lemma quantile_prior_fit bppf erfinv bad : exists t,
  mode_fit insertion_sort try_two bppf erfinv as_is bad (AdditiveQuantile (1/2)) true [w_group keep_values] w_cfg ex_rate 1 heavy_prior = Trained t.
Proof.
  destruct (mode_given _ _ _ _ _ _ _ _ _ _ _ 2 _ _ as_is_by_position (quantile_run bppf erfinv bad)) as (t & E & _).
  exists t. destruct heavy_same_prior as (H & W & _).
  rewrite (proj1 (mode_constant insertion_sort try_two bppf erfinv as_is bad (AdditiveQuantile (1/2)) _ _ _ _ 2 heavy_prior (identity_linked 2) W H)).
  exact E.
Qed.
Lemma price_prior_fit a c : exists t, price_fit third a c 1 true [(u_group, true)] p_cfg ex_rate 1 p_heavy_prior = Trained t.
Proof.
  destruct (p_heavy_run a c) as (l & o & R).
  destruct (price_given _ _ _ _ _ _ _ _ 2 _ _ R) as (t & E & _). exists t. destruct p_heavy_same_prior as (H & W & _).
  rewrite (proj1 (price_constant third a c 1 [(u_group, true)] p_cfg ex_rate 1 2 p_heavy_prior ltac:(lra) W H)). exact E.
Qed.
