(** C19, C23, C24: prediction with a trained model. *)
From Coq Require Import ZArith QArith List Bool Reals.
From Verif.Model Require Import Num LexBins Train Predict.
From Verif.Spec Require Import LexSpec TrainSpec PredictSpec.
From Verif.Proofs Require Import TrainExamples PredictFacts NeutralFacts PredictExamples PredictPropFacts.
Import ListNotations.
Local Open Scope R_scope.

(** ** C19 *)
(** What holds: with aggregation for every divergence history, without
    aggregation if no iteration diverged; one-dimensional columns hold whole bin
    numbers. Missing: the two refutations below. *)
Theorem C19_predict_is_insample_partial : forall cfg features calc smooth calib rate loss prior N,
  well_shaped N features prior -> one_per_bin features calc calib ->
  forall fuel st, fit_main cfg features calc smooth calib rate loss fuel prior = Some (Ok st) ->
  (c_aggregate cfg = true \/ t_diverging st = 0%nat) ->
  (forall f, In f features -> (1 <= f_dim f)%nat) ->
  (forall f, In f features -> f_dim f = 1%nat -> whole_rows (f_rows f)) ->
  forall e j, (j < N)%nat ->
    nth j (column e (predict_extended (trained_model features st) prior (training_data features N))) 0 =
    nth j (column e (t_preds st)) 0.
Proof. exact insample. Qed.
Print Assumptions C19_predict_is_insample_partial.

Theorem C19_without_aggregation_refuted :
  exists cfg features calc smooth calib rate loss prior fuel st,
    well_shaped 1 features prior /\ one_per_bin features calc calib /\
    fit_main cfg features calc smooth calib rate loss fuel prior = Some (Ok st) /\
    c_aggregate cfg = false /\
    (forall f, In f features -> f_dim f = 1%nat /\ whole_rows (f_rows f)) /\
    nth 0 (p_factors (predict_extended (trained_model features st) prior (training_data features 1))) 0 <>
    nth 0 (p_factors (t_preds st)) 0.
Proof. exact insample_refuted. Qed.
Print Assumptions C19_without_aggregation_refuted.

(** Training rounds fractional one-dimensional bin numbers down, prediction to
    the nearest integer. *)
Theorem C19_fractional_bins_refuted :
  exists cfg features calc smooth calib rate loss prior fuel st,
    well_shaped 2 features prior /\ one_per_bin features calc calib /\
    fit_main cfg features calc smooth calib rate loss fuel prior = Some (Ok st) /\
    c_aggregate cfg = true /\ t_diverging st = 0%nat /\
    nth 0 (p_factors (predict_extended (trained_model features st) prior (training_data features 2))) 0 <>
    nth 0 (p_factors (t_preds st)) 0.
Proof. exact fractional_refuted. Qed.
Print Assumptions C19_fractional_bins_refuted.

Example c19_example :
  fit_main (ex_cfg true true false 0 2) [ex_feature false false] (ex_calc (1/4) (1/8)) ex_smooth ex_id ex_rate flat_loss 6 ex_prior = Some (Ok g2) /\
  well_shaped 1 [ex_feature false false] ex_prior /\ one_per_bin [ex_feature false false] (ex_calc (1/4) (1/8)) ex_id /\
  (forall f, In f [ex_feature false false] -> (1 <= f_dim f)%nat) /\
  (forall f, In f [ex_feature false false] -> f_dim f = 1%nat -> whole_rows (f_rows f)) /\
  predict_extended (trained_model [ex_feature false false] g2) ex_prior (training_data [ex_feature false false] 1) = st_preds (1/2).
Proof. exact ex_c19. Qed.

(** ** C23 *)
(** The prediction of a row in a batch: inverse link of the row's prior plus the
    contributions each group would give to the row on its own. *)
Theorem C23_rowwise : forall unlink scale offset ms linked X,
  (forall l, linked = Some l -> length l = length X) ->
  length (cb_predict unlink scale offset ms linked X) = length X /\
  forall j x, nth_error X j = Some x ->
    nth_error (cb_predict unlink scale offset ms linked X) j =
    Some (unlink (prior_of scale offset linked j + group_sum alone false 0 ms x)).
Proof. exact predict_rows. Qed.
Print Assumptions C23_rowwise.

(** Splitting a batch. *)
Theorem C23_split : forall unlink scale offset ms l1 l2 X1 X2,
  length l1 = length X1 -> length l2 = length X2 ->
  cb_predict unlink scale offset ms (Some (l1 ++ l2)) (X1 ++ X2) =
  cb_predict unlink scale offset ms (Some l1) X1 ++ cb_predict unlink scale offset ms (Some l2) X2 /\
  cb_predict unlink scale offset ms None (X1 ++ X2) =
  cb_predict unlink scale offset ms None X1 ++ cb_predict unlink scale offset ms None X2.
Proof. exact predict_split. Qed.
Print Assumptions C23_split.

(** Selecting and reordering rows. *)
Theorem C23_any_order : forall unlink scale offset ms l X idx d,
  length l = length X -> (forall i, In i idx -> (i < length X)%nat) ->
  cb_predict unlink scale offset ms (Some (map (fun i => nth i l None) idx)) (map (fun i => nth i X d) idx) =
  map (fun i => nth i (cb_predict unlink scale offset ms (Some l) X) 0) idx.
Proof. exact predict_select. Qed.
Print Assumptions C23_any_order.

(** What a group of a fitted model contributes. *)
Theorem C23_contribution_of_a_group : forall cfg features calc smooth calib rate loss prior N,
  well_shaped N features prior -> one_per_bin features calc calib ->
  forall fuel st m f s rows j row,
  fit_main cfg features calc smooth calib rate loss fuel prior = Some (Ok st) ->
  nth_error features m = Some f -> (1 <= f_dim f)%nat -> nth_error (t_feats st) m = Some s ->
  nth_error rows j = Some row ->
  exists x, nth_error (predict_factors (store f s) rows) j = Some x /\
    contributes (f_nbins f) (firstn (f_finite f) (learned s)) (nth (f_finite f) (learned s) 0) row x.
Proof. exact prediction_contributes. Qed.
Print Assumptions C23_contribution_of_a_group.

Example c23_example :
  cb_predict exp 1 0 (trained_model [u_feature] u1) None [fun _ => [Fin 2%Q]; fun _ => [NaN]; fun _ => [Fin 0%Q]; fun _ => [Fin 1%Q]; fun _ => [Fin 9%Q]] =
  [exp (1 + 1/8); exp 1; exp (1 + 1/4); exp 1; exp 1].
Proof. exact ex_c23. Qed.

(** ** C24 *)
(** Bin numbers outside the training range contribute nothing, missing values the
    learned value of the missing bin: C23_contribution_of_a_group. *)
Theorem C24_out_of_range_and_missing : forall cfg features calc smooth calib rate loss prior N,
  well_shaped N features prior -> one_per_bin features calc calib ->
  forall fuel st m f s rows j row,
  fit_main cfg features calc smooth calib rate loss fuel prior = Some (Ok st) ->
  nth_error features m = Some f -> (1 <= f_dim f)%nat -> nth_error (t_feats st) m = Some s ->
  nth_error rows j = Some row ->
  (missing_entry row -> nth_error (predict_factors (store f s) rows) j = Some (nth (f_finite f) (learned s) 0)) /\
  (forall t, holds_tuple row t -> length t = f_dim f -> ~ missing_entry row -> ~ valid_tuple (f_nbins f) t ->
    nth_error (predict_factors (store f s) rows) j = Some 0).
Proof. exact out_of_range_and_missing. Qed.
Print Assumptions C24_out_of_range_and_missing.

(** Categories without training rows of non-zero weight, for smoothers of the discontinuous type.
    Missing: after a divergence of a multiplicative model. *)
Theorem C24_unseen_category_neutral_partial : forall cfg features calc smooth calib rate loss prior N,
  well_shaped N features prior -> one_per_bin features calc calib ->
  forall fuel st m f s raw w rows j row t,
  fit_main cfg features calc smooth calib rate loss fuel prior = Some (Ok st) ->
  (c_log cfg && c_aggregate cfg = false \/ t_diverging st = 0%nat) ->
  nth_error features m = Some f -> (1 <= f_dim f)%nat ->
  (forall it p v, smooth m it p v = discontinuous_cut (f_nbins f) (finite_bin_weightsums f w) (raw it p v)) ->
  (forall v, calib m v = v) ->
  nth_error (t_feats st) m = Some s -> nth_error rows j = Some row ->
  holds_tuple row t -> valid_tuple (f_nbins f) t -> ~ occurs f w t ->
  nth_error (predict_factors (store f s) rows) j = Some 0.
Proof. exact unseen_category_neutral. Qed.
Print Assumptions C24_unseen_category_neutral_partial.

(** Missing values declared not to be learned. The calibration has to keep the
    last entry, as both implementations do. Missing: after a divergence of a
    multiplicative model, see the refutation. *)
Theorem C24_missing_not_learned_neutral_partial : forall cfg features calc smooth calib rate loss prior N,
  well_shaped N features prior -> one_per_bin features calc calib ->
  forall fuel st m f s rows j row,
  fit_main cfg features calc smooth calib rate loss fuel prior = Some (Ok st) ->
  (c_log cfg && c_aggregate cfg = false \/ t_diverging st = 0%nat) ->
  nth_error features m = Some f -> (1 <= f_dim f)%nat -> f_mnl f = true ->
  (forall v, calib m (v ++ [0]) = firstn (length v) (calib m (v ++ [0])) ++ [0]) ->
  nth_error (t_feats st) m = Some s -> nth_error rows j = Some row -> missing_entry row ->
  nth_error (predict_factors (store f s) rows) j = Some 0.
Proof. exact missing_not_learned_neutral. Qed.
Print Assumptions C24_missing_not_learned_neutral_partial.

Theorem C24_missing_not_learned_refuted :
  exists cfg features calc smooth calib rate loss prior fuel st f s,
    well_shaped 1 features prior /\ one_per_bin features calc calib /\ (forall v, calib 0%nat v = v) /\
    fit_main cfg features calc smooth calib rate loss fuel prior = Some (Ok st) /\
    nth_error features 0 = Some f /\ f_mnl f = true /\ nth_error (t_feats st) 0 = Some s /\
    nth 0 (predict_factors (store f s) [[NaN]]) 0 <> 0.
Proof. exact missing_not_learned_refuted. Qed.
Print Assumptions C24_missing_not_learned_refuted.

Example c24_example :
  fit_main (ex_cfg true true false 0 1) [u_feature] u_calc u_smooth ex_id ex_rate flat_loss 5 q_prior = Some (Ok u1) /\
  well_shaped 2 [u_feature] q_prior /\ one_per_bin [u_feature] u_calc ex_id /\
  valid_tuple (f_nbins u_feature) [1%Z] /\ ~ occurs u_feature [1%Q; 1%Q] [1%Z] /\ occurs u_feature [1%Q; 1%Q] [2%Z] /\
  f_mnl u_feature = true /\ missing_entry [NaN].
Proof. exact ex_c24. Qed.
