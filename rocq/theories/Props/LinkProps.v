(** C27, C28, C33, C52: links, classifier outputs, learning rates, baseline. *)
From Coq Require Import List Bool Reals.
From Verif.Model Require Import Num LexBins Train Predict Link.
From Verif.Spec Require Import TrainSpec PredictSpec LinkSpec.
From Verif.Proofs Require Import LinkFacts.
Import ListNotations.
Local Open Scope R_scope.

(** ** C27 *)
Theorem C27_inverse_after_link : forall l m, interior l m ->
  exists v, link_func l m = Some v /\ unlink_func l v = m.
Proof. exact links_inverse. Qed.
Print Assumptions C27_inverse_after_link.

Theorem C27_link_after_inverse : forall l v, link_func l (unlink_func l v) = Some v.
Proof. exact link_unlink. Qed.
Print Assumptions C27_link_after_inverse.

(** The link is finite exactly in the interior of the accepted range. *)
Theorem C27_link_finite : forall l m, (exists v, link_func l m = Some v) <-> interior l m.
Proof. exact link_finite_interior. Qed.
Print Assumptions C27_link_finite.

Theorem C27_link_increasing : forall l m m' v v',
  link_func l m = Some v -> link_func l m' = Some v' -> (m < m' <-> v < v').
Proof. exact link_increasing. Qed.
Print Assumptions C27_link_increasing.

Theorem C27_inverse_increasing : forall l v v', v < v' -> unlink_func l v < unlink_func l v'.
Proof. exact unlink_increasing. Qed.
Print Assumptions C27_inverse_increasing.

Theorem C27_prediction_ranges : forall l scale offset ms linked X p,
  In p (cb_predict (unlink_func l) scale offset ms linked X) ->
  match l with Log => 0 < p | Logit => 0 < p < 1 | Identity => True end.
Proof. exact prediction_ranges. Qed.
Print Assumptions C27_prediction_ranges.

Example c27_interior : interior Logit (1/2) /\ ~ interior Logit 1 /\ is_in_range Logit [1] = true.
Proof. exact ex_c27. Qed.

(** ** C28 *)
Theorem C28_probabilities_and_classes : forall scores j s, nth_error scores j = Some s ->
  exists p0 p1, nth_error (predict_proba scores) j = Some [p0; p1] /\
    0 <= p0 /\ 0 <= p1 /\ p0 + p1 = 1 /\ p1 = unlink_func Logit s /\
    (1 / 2 < p1 -> nth_error (predict_class scores) j = Some 1) /\
    (p1 <= 1 / 2 -> nth_error (predict_class scores) j = Some 0).
Proof. exact proba_rows. Qed.
Print Assumptions C28_probabilities_and_classes.

(** The weight of a row is the distance of its probability from the target. *)
Theorem C28_boost_weights : forall y p, 0 <= p <= 1 ->
  0 < boost_weight y p < 1 /\
  (0 < p < 1 -> boost_weight y p = if Reqb y 0 then p else 1 - p).
Proof. exact boost_weight_range. Qed.
Print Assumptions C28_boost_weights.

Example c28_example : nth_error [0; 1] 1 = Some 1 /\ nth_error (predict_class [0; 1]) 1 = Some 1 /\
  nth_error (predict_class [0; 1]) 0 = Some 0.
Proof. exact ex_c28. Qed.

(** ** C33 *)
Theorem C33_rates_non_decreasing : forall r mx it it', offered_rate r -> (0 < mx)%nat -> (it <= it')%nat ->
  r it (INR mx) <= r it' (INR mx).
Proof. exact rate_monotone. Qed.
Print Assumptions C33_rates_non_decreasing.

Theorem C33_rates_in_range : forall r mx it, offered_rate r -> (1 <= it <= mx)%nat -> 0 < r it (INR mx) <= 1.
Proof. exact rate_range. Qed.
Print Assumptions C33_rates_in_range.

Theorem C33_rates_end_at_one : forall r mx, offered_rate r -> (1 <= mx)%nat -> r <> logistic_learn_rate ->
  r mx (INR mx) = 1.
Proof. exact rate_last. Qed.
Print Assumptions C33_rates_end_at_one.

Theorem C33_logistic_end : forall mx, (1 <= mx)%nat -> logistic_learn_rate mx (INR mx) = 1 - 1 / 1000000000.
Proof. exact rate_last_logistic. Qed.
Print Assumptions C33_logistic_end.

(** The rate used by the training loop in its iterations 0, 1, ..., max - 1. *)
Theorem C33_rates_of_the_loop : forall r mx it, offered_rate r -> (it < mx)%nat ->
  0 < learning_rate r mx it <= 1 /\ (r <> logistic_learn_rate -> learning_rate r mx (mx - 1) = 1).
Proof. exact loop_rates. Qed.
Print Assumptions C33_rates_of_the_loop.

Theorem C33_half_linear_full : forall mx it, (1 <= mx)%nat -> (mx <= 2 * it)%nat -> half_linear_learn_rate it (INR mx) = 1.
Proof. exact half_linear_full. Qed.
Print Assumptions C33_half_linear_full.

Example c33_example : offered_rate linear_learn_rate /\ linear_learn_rate 1 (INR 4) = 1 / 4 /\
  half_linear_learn_rate 1 (INR 4) = 1 / 2.
Proof. exact ex_c33. Qed.

(** ** C52 *)
Theorem C52_baseline : forall l y w m scale offset X,
  sumR w <> 0 -> is_weighted_mean y w m -> global_scale l y w = Some scale ->
  cb_predict (unlink_func l) scale offset [] None X = repeat (m + 1 / 1000) (List.length X).
Proof. exact baseline_no_prior. Qed.
Print Assumptions C52_baseline.

(** With a prior prediction column whose weighted mean [pm] is usable: in link
    space the distance of the prediction from the baseline is the distance of the
    prior from [pm]; the baseline is predicted for unusable priors. *)
Theorem C52_prior_column : forall l y w m scale prior X pm,
  sumR w <> 0 -> is_weighted_mean y w m -> global_scale l y w = Some scale ->
  List.length w = List.length prior ->
  sumR (map snd (usable prior w)) <> 0 ->
  is_weighted_mean (map fst (usable prior w)) (map snd (usable prior w)) pm -> interior l pm ->
  forall column j p, List.length X = List.length column -> nth_error column j = Some p ->
  exists q, nth_error (cb_predict (unlink_func l) scale (prior_offset l scale prior w) []
              (Some (linked_prior l column)) X) j = Some q /\
    ((forall x, p = Some x -> ~ interior l x) -> q = m + 1 / 1000) /\
    (forall x, p = Some x -> interior l x -> exists lq lb lx lpm,
       link_func l q = Some lq /\ link_func l (m + 1 / 1000) = Some lb /\
       link_func l x = Some lx /\ link_func l pm = Some lpm /\ lq - lb = lx - lpm).
Proof. exact baseline_with_prior. Qed.
Print Assumptions C52_prior_column.

(** Existence of the baseline for accepted targets; for a classifier only if the
    mean target is below 0.999. *)
Theorem C52_baseline_exists_partial : forall y w m,
  (forall x, In x w -> 0 <= x) -> 0 < sumR w -> is_weighted_mean y w m ->
  (check_y_regressor y = true -> exists s, global_scale Log y w = Some s) /\
  (exists s, global_scale Identity y w = Some s) /\
  (check_y_classifier y = true -> (exists s, global_scale Logit y w = Some s) <-> m < 999 / 1000).
Proof. exact baseline_exists. Qed.
Print Assumptions C52_baseline_exists_partial.

Theorem C52_all_ones_refuted : exists y w,
  check_y_classifier y = true /\ 0 < sumR w /\ global_scale Logit y w = None.
Proof. exact all_ones_no_baseline. Qed.
Print Assumptions C52_all_ones_refuted.

(** The code announces that no individualisation is done if the mean prior has no
    finite link; yet the row with prior 3 gets three times the baseline 2. *)
Theorem C52_unusable_prior_mean_refuted : exists y w m scale prior pm X,
  0 < sumR w /\ is_weighted_mean y w m /\ global_scale Log y w = Some scale /\
  is_weighted_mean (map fst (usable prior w)) (map snd (usable prior w)) pm /\ link_func Log pm = None /\
  m + 1 / 1000 = 2 /\
  cb_predict (unlink_func Log) scale (prior_offset Log scale prior w) [] (Some (linked_prior Log prior)) X = [2; 6].
Proof. exact unusable_prior_mean. Qed.
Print Assumptions C52_unusable_prior_mean_refuted.

Example c52_example : exists scale, global_scale Log [1; 2] [1; 3] = Some scale /\ is_weighted_mean [1; 2] [1; 3] (7/4) /\
  usable [Some 1; None] [1; 3] = [(1, 1)] /\ interior Log 1.
Proof. exact ex_c52. Qed.
