(** C96: the data offered to observers for plots. *)
From Coq Require Import ZArith QArith List Bool Reals.
From Verif.Model Require Import Num LexBins Train Quantile PlotData.
From Verif.Spec Require Import EstimatorSpec QuantileSpec PlotSpec.
From Verif.Proofs Require Import PlotFacts PlotLevels.
Import ListNotations.
Local Open Scope R_scope.

(** C96, regressions and classification: one entry per bin; the deviation is positive,
    zero or negative as the predictions of the bin exceed, match or fall short of the
    targets, and zero for a bin without rows. Missing: the levels of bins without rows and
    the quantile estimators, see below. *)
Theorem C96_deviation_partial : forall identity lex n y w pred, per_row lex y -> per_row lex w -> per_row lex pred -> nonneg w ->
  (identity = false -> nonneg y /\ nonneg pred) ->
  entry_per_bin n (prepare_plots identity lex n y w pred) /\
  forall k, (k <= n)%nat -> exists v, nth_error (d_dev (prepare_plots identity lex n y w pred)) k = Some v /\
    signals v (bin_sum lex (fun j => at_row w j * at_row pred j) k) (bin_sum lex (fun j => at_row w j * at_row y j) k) /\
    (~ In k lex -> v = 0).
Proof. exact base_plots. Qed.
Print Assumptions C96_deviation_partial.
Example C96_deviation_example : exists lex y w pred, per_row lex y /\ per_row lex w /\ per_row lex pred /\ nonneg w /\
  nonneg y /\ nonneg pred /\ exists v, nth_error (d_dev (prepare_plots false lex 1 y w pred)) 0 = Some v /\ 0 < v.
Proof. exact base_example. Qed.

(** C96, levels: of two bins of the same weight the one with the larger targets
    (predictions) shows the higher level of targets (predictions). *)
Theorem C96_levels_partial : forall identity lex n y w pred k k', per_row lex y -> per_row lex w -> per_row lex pred -> nonneg w ->
  let d := prepare_plots identity lex n y w pred in
  (identity = false -> nonneg y /\ nonneg pred /\ 0 < d_y_finite d /\ 0 < d_pred_finite d) ->
  (k <= n)%nat -> (k' <= n)%nat -> bin_sum lex (at_row w) k = bin_sum lex (at_row w) k' ->
  (exists a b, nth_error (d_y d) k = Some a /\ nth_error (d_y d) k' = Some b /\
     signals (a - b) (bin_sum lex (fun j => at_row w j * at_row y j) k) (bin_sum lex (fun j => at_row w j * at_row y j) k')) /\
  (exists a b, nth_error (d_pred d) k = Some a /\ nth_error (d_pred d) k' = Some b /\
     signals (a - b) (bin_sum lex (fun j => at_row w j * at_row pred j) k) (bin_sum lex (fun j => at_row w j * at_row pred j) k')).
Proof. exact base_levels. Qed.
Print Assumptions C96_levels_partial.
Example C96_levels_example : let d := prepare_plots false [0; 1]%nat 2 [1; 2] [1; 1] [2; 1] in
  0 < d_y_finite d /\ 0 < d_pred_finite d /\ bin_sum [0; 1]%nat (at_row [1; 1]) 0 = bin_sum [0; 1]%nat (at_row [1; 1]) 1.
Proof. exact levels_example. Qed.

(** C96, quantile estimators with positive weights: the deviation of a bin with rows
    compares its mean prediction with the quantile of its targets; there is an entry for
    each bin exactly if one of the rows is in the last regular bin or that of missing
    values. *)
Theorem C96_quantile_partial : forall sort identity q lex n y w pred, sorts sort -> 0 < q <= 1 -> lex <> [] ->
  per_row lex y -> per_row lex w -> per_row lex pred -> (forall v, In v w -> 0 < v) -> (forall b, In b lex -> (b <= n)%nat) ->
  (identity = false -> nonneg pred) ->
  exists d, quantile_plots sort identity q lex n y w pred = Some d /\
    (entry_per_bin n d <-> exists b, In b lex /\ (n <= S b)%nat) /\
    forall k, In k lex -> exists t v, continuous_quantile sort (rows_in k lex (combine y w)) q = Some t /\
      nth_error (d_dev d) k = Some v /\ ((identity = false -> 0 <= t) -> signals v (bin_mean lex w pred k) t).
Proof. exact quantile_signs. Qed.
Print Assumptions C96_quantile_partial.

(** For features of one column that is always so. *)
Theorem C96_quantile_column_partial : forall sort identity q f y w pred, sorts sort -> 0 < q <= 1 ->
  f_dim f = 1%nat -> (forall r, In r (f_rows f) -> length r = 1%nat) -> f_rows f <> [] ->
  per_row (f_lex f) y -> per_row (f_lex f) w -> per_row (f_lex f) pred -> (forall v, In v w -> 0 < v) ->
  (identity = false -> nonneg pred) ->
  exists d, quantile_plots sort identity q (f_lex f) (f_finite f) y w pred = Some d /\ entry_per_bin (f_finite f) d.
Proof. exact one_column_plots. Qed.
Print Assumptions C96_quantile_column_partial.

(** C96 fails for quantile estimators and a feature of two columns whose last
    combinations have no rows. *)
Theorem C96_quantile_refuted : forall sort, sorts sort -> exists d,
  quantile_plots sort true (1/2) (f_lex corner_feature) (f_finite corner_feature) [3; 5] [1; 1] [4; 4] = Some d /\
  ~ entry_per_bin (f_finite corner_feature) d.
Proof. exact corner_witness. Qed.
Print Assumptions C96_quantile_refuted.

(** C96 fails for the levels of a bin without rows: it is shown 9 below the mean 10. *)
Theorem C96_level_refuted : exists lex n y w pred k v,
  per_row lex y /\ per_row lex w /\ per_row lex pred /\ nonneg w /\ (k < n)%nat /\ ~ In k lex /\
  nth_error (d_y (prepare_plots true lex n y w pred)) k = Some v /\ v = -9 /\
  nth_error (d_pred (prepare_plots true lex n y w pred)) k = Some v.
Proof. exact empty_level_witness. Qed.
Print Assumptions C96_level_refuted.
