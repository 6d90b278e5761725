(** Properties of whole trainings of the price model. *)
From Coq Require Import ZArith QArith List Bool Reals Permutation Lra.
From Verif.Model Require Import Num LexBins Train Predict Link WholeFit Estimators Price PriceFit.
From Verif.Spec Require Import PredictSpec DataSpec PriceFitSpec ExponentSpec OffersSpec.
From Verif.Proofs Require Import TrainExamples WholeExamples BinFitExamples PriceFitFacts PriceFitExamples ExponentFacts OffersFacts.
Import ListNotations.
Local Open Scope R_scope.

(** C67 in training: for the rows of a feature group in bin [b] of the group, with the
    predictions at that time. *)
Theorem C67_training : forall a c var_l lex D p ls b l, (forall r, In r D -> q_exponent r <> 0) ->
  nth_error ls b = Some l -> 0 < l -> rows_of_bin b (placed_rows lex D p) <> [] ->
  let loss := exponent_loss a c var_l (placed_rows lex D p) b in
  exists s j h g, nth_error (newton_step (exponent_rows a c lex D p) var_l ls) b = Some s /\ jac s = RFin j /\ hess s = RFin h /\
    derivable_pt_lim loss l j /\ (forall x, 0 < x -> derivable_pt_lim loss x (g x)) /\ derivable_pt_lim g l h /\
    (h <> 0 -> new_l s = RFin (l - j / h)) /\ (h = 0 -> new_l s = RNaN).
Proof. exact training_step. Qed.
Print Assumptions C67_training.
Example C67_training_case : (forall r, In r two_offers -> q_exponent r <> 0) /\
  length (rows_of_bin 0 (placed_rows [0%nat; 0%nat] two_offers {| p_factors := [0; 1]; p_exponents := [1; 0] |})) = 2%nat.
Proof. exact two_offers_case. Qed.

(** C68 for trained models: raising the price of one row lowers its prediction if its prior
    exponent is negative, raises it if that is positive, and leaves all other rows alone. *)
Theorem C68_trained_falls : forall prior t before after r p q, q_exponent r < 0 -> (p < q)%Q ->
  exists u v, nth_error (price_fit_predict prior t (before ++ with_price r (Fin p) :: after)) (length before) = Some u /\
              nth_error (price_fit_predict prior t (before ++ with_price r (Fin q) :: after)) (length before) = Some v /\ v < u.
Proof. exact price_falls. Qed.
Print Assumptions C68_trained_falls.
Theorem C68_trained_rises : forall prior t before after r p q, 0 < q_exponent r -> (p < q)%Q ->
  exists u v, nth_error (price_fit_predict prior t (before ++ with_price r (Fin p) :: after)) (length before) = Some u /\
              nth_error (price_fit_predict prior t (before ++ with_price r (Fin q) :: after)) (length before) = Some v /\ u < v.
Proof. exact price_rises. Qed.
Print Assumptions C68_trained_rises.
Theorem C68_trained_others : forall prior t before after r x y j, j <> length before ->
  nth_error (price_fit_predict prior t (before ++ with_price r x :: after)) j =
  nth_error (price_fit_predict prior t (before ++ with_price r y :: after)) j.
Proof. exact price_others. Qed.
Print Assumptions C68_trained_others.
(** The documented form with the contributions of the trained groups. *)
Theorem C68_trained_form : forall prior t X, length (price_fit_predict prior t X) = length X /\
  forall j r, nth_error X j = Some r -> nth_error (price_fit_predict prior t X) j =
    Some (exp (prior_of (o_scale t) (o_offset t) (price_column prior X) j + group_sum alone false 0 (o_groups t) (x_bins (q_row r)) +
               q_exponent r * exp (group_sum alone true 0 (o_groups t) (x_bins (q_row r))) * external_base (q_price r))).
Proof. exact price_rows. Qed.
Print Assumptions C68_trained_form.
Example C68_trained_example : q_exponent (at_reference (-1) 1) < 0 /\ (1 < 2)%Q /\
  forall a c, exists t, price_fit third a c 1 false [(u_group, true)] p_cfg ex_rate 1 p_heavy = Trained t.
Proof. split; [cbn; lra|]. split; [reflexivity|]. intros a c. destruct (p_heavy_run a c) as (l & o & H). eauto. Qed.

(** C84: the order of the training rows does not matter for the price model either. *)
Theorem C84_price : forall gamma_median a c var_l prior gs cfg rate fuel D D',
  Permutation D D' -> well_formed (map fst gs) (map q_row D) ->
  price_fit gamma_median a c var_l prior gs cfg rate fuel D = price_fit gamma_median a c var_l prior gs cfg rate fuel D'.
Proof. intros. apply price_order; assumption. Qed.
Print Assumptions C84_price.
Example C84_price_example : Permutation p_heavy (rev p_heavy) /\ p_heavy <> rev p_heavy /\ well_formed (map fst [(u_group, true)]) (map q_row p_heavy).
Proof.
  split; [apply Permutation_rev|]. split.
  - intro E. apply (f_equal (map q_exponent)) in E. cbn in E. injection E as E _. lra.
  - intros s [|[|i]] g I G; cbn in G; try discriminate. injection G as <-. cbn in I. destruct I as [<-|[<-|[]]]; reflexivity.
Qed.

(** C85 is false for the price model: the prior of the exponents is an average over the rows
    of a bin that ignores their weights, so that two copies of a row differ from one row
    with weight two. *)
Theorem C85_price_refuted : exists r rest x, x_w (q_row r) = INR 2 /\ forall a c, exists t t',
  price_fit third a c 1 false [(u_group, true)] p_cfg ex_rate 1 (r :: rest) = Trained t /\
  price_fit third a c 1 false [(u_group, true)] p_cfg ex_rate 1 (price_copies r 2 ++ rest) = Trained t' /\
  price_fit_predict false t [x] <> price_fit_predict false t' [x].
Proof. exact price_copies_differ. Qed.
Print Assumptions C85_price_refuted.

(** C97: the price model predicts one positive value per row. *)
Theorem C97_price : forall prior t X, length (price_fit_predict prior t X) = length X /\
  forall v, In v (price_fit_predict prior t X) -> 0 < v.
Proof. exact price_positive. Qed.
Print Assumptions C97_price.
Example C97_price_example : forall h l o, 0 <= h -> price_fit_predict false (p_model h l o) [with_price (at_reference (-1) 1) (Fin 2)] =
  [exp (p_scale + - ((h + 2 - 1 / 3) / (h + 167834 / 100000)))].
Proof. exact p_model_predict. Qed.

(** C99: without external groups and without prices other than the reference, the price model is the
    negative binomial model with the same variance, in training and in prediction. *)
Theorem C99_training : forall gamma_median beta_ppf erfinv bad a c var_l prior gs cfg rate D,
  Forall (fun g : price_group => snd g = false) gs -> Forall neutral_price D -> forall fuel,
  price_fit gamma_median a c var_l prior gs cfg rate fuel D =
  whole_fit gamma_median beta_ppf erfinv bad (NBinomRegressor a c) prior (map fst gs) cfg rate fuel (map q_row D).
Proof. exact neutral_fit. Qed.
Print Assumptions C99_training.
Theorem C99_prediction : forall a c prior t X, Forall neutral_price X ->
  price_fit_predict prior t X = whole_predict (NBinomRegressor a c) prior t (map q_row X).
Proof. exact neutral_predict. Qed.
Print Assumptions C99_prediction.
Example C99_example : Forall (fun g : price_group => snd g = false) [(u_group, false)] /\
  Forall neutral_price [at_reference (-1) 2; with_price (at_reference (-2) 1) (Fin 1)].
Proof. split; repeat constructor. Qed.

(** C116: the estimates and the smoothed values of external groups, for given predictions. *)
Theorem C116_estimates : forall gamma_median a c var_l features D D' i p f,
  nth_error features i = Some f -> f_ext f = true -> same_offers D D' ->
  price_estimates gamma_median a c var_l features D i p = price_estimates gamma_median a c var_l features D' i p.
Proof. exact priced_rows_only. Qed.
Print Assumptions C116_estimates.
Theorem C116_smoothing : forall gamma_median a c var_l gs features D D' i p f,
  nth_error features i = Some f -> f_ext f = true -> same_offers D D' ->
  price_smoothing gamma_median a c var_l gs features D i p = price_smoothing gamma_median a c var_l gs features D' i p.
Proof. exact priced_smoothing_only. Qed.
Print Assumptions C116_smoothing.
(** Bins without offers, the one for missing values included: as many units expected as seen. *)
Theorem C116_neutral : forall gamma_median a c var_l features D i p f b,
  nth_error features i = Some f -> f_ext f = true -> (b <= f_finite f)%nat -> no_offers (f_lex f) D b ->
  exists h, 0 <= h /\ nth_error (fst (price_estimates gamma_median a c var_l features D i p)) b =
    Some (factor_from_posterior gamma_median (h + gamma_alpha_prior) (h + gamma_beta_prior)).
Proof. exact bins_without_offers. Qed.
Print Assumptions C116_neutral.
Example C116_case : same_offers two_offers changed_offers /\ two_offers <> changed_offers /\
  no_offers [0%nat; 1%nat] two_offers 1 /\ ~ no_offers [0%nat; 1%nat] two_offers 0.
Proof. exact offers_case. Qed.
