(** C134: what a single feature group of the location regressor learns. *)
From Coq Require Import ZArith QArith List Bool Reals.
From Verif.Model Require Import Num Train WholeFit BinSmoothers.
From Verif.Spec Require Import LexSpec InsampleSpec CellSpec LocationCellSpec.
From Verif.Proofs Require Import TrainExamples WholeExamples DescentExamples LocationCell LocationCellExamples LocationMissing LocationMissingExamples.
Import ListNotations.
Local Open Scope R_scope.

(** With learning rates of at least [rho] and enough passes, the prediction for a training
    row is as close as one likes to the mean target of its bin plus the excess. *)
Theorem C134_limit : forall gm bppf erfinv bad g rate D,
  binned_rows [g] D -> Forall (fun s => 0 < x_w s) D -> g_smoother g = bin_values ->
  (g_mnl g = false \/ Forall (fun s => ~ missing_entry (x_bins s 0%nat)) D) ->
  forall same, bins_of D same -> varied same D ->
  forall rho, 0 < rho -> (forall it i, rho <= rate it i <= 1) -> forall j s eps, nth_error D j = Some s -> 0 < eps ->
  exists enough, forall cfg fuel t p,
    (c_hier cfg = false \/ g_hier g = true) -> c_log cfg = false -> c_aggregate cfg = true ->
    whole_fit gm bppf erfinv bad LocationRegressor false [g] cfg rate fuel D = Trained t -> (enough <= o_iterations t)%nat ->
    nth_error (whole_predict LocationRegressor false t D) j = Some p ->
    Rabs (p - (mean_of_cell (same s) D + excess same D s)) <= eps.
Proof. exact location_limit. Qed.
Print Assumptions C134_limit.

(** The excess is positive, at most a thousandth times the reluctance of the bin, and a
    thousandth in the mean over the rows. *)
Theorem C134_excess : forall g D,
  binned_rows [g] D -> Forall (fun s => 0 < x_w s) D ->
  (g_mnl g = false \/ Forall (fun s => ~ missing_entry (x_bins s 0%nat)) D) ->
  forall same, bins_of D same -> D <> [] ->
  (forall s, In s D -> 0 < excess same D s <= 1 / 1000 * reluctance (same s) D) /\
  overall (fun s => x_w s * excess same D s) D = 1 / 1000 * overall x_w D.
Proof. exact excess_bounds. Qed.
Print Assumptions C134_excess.

(** So the predictions come within a thousandth times the reluctance of the mean target of
    the bin. *)
Theorem C134_near : forall gm bppf erfinv bad g rate D,
  binned_rows [g] D -> Forall (fun s => 0 < x_w s) D -> g_smoother g = bin_values ->
  (g_mnl g = false \/ Forall (fun s => ~ missing_entry (x_bins s 0%nat)) D) ->
  forall same, bins_of D same -> varied same D ->
  forall rho, 0 < rho -> (forall it i, rho <= rate it i <= 1) -> forall j s eps, nth_error D j = Some s -> 0 < eps ->
  exists enough, forall cfg fuel t p,
    (c_hier cfg = false \/ g_hier g = true) -> c_log cfg = false -> c_aggregate cfg = true ->
    whole_fit gm bppf erfinv bad LocationRegressor false [g] cfg rate fuel D = Trained t -> (enough <= o_iterations t)%nat ->
    nth_error (whole_predict LocationRegressor false t D) j = Some p ->
    Rabs (p - mean_of_cell (same s) D) <= 1 / 1000 * reluctance (same s) D + eps.
Proof. exact location_near. Qed.
Print Assumptions C134_near.

(** The mean target itself is not learned: after enough passes the predictions of every bin
    stay above it, by half the excess at least. *)
Theorem C134_above : forall gm bppf erfinv bad g rate D,
  binned_rows [g] D -> Forall (fun s => 0 < x_w s) D -> g_smoother g = bin_values ->
  (g_mnl g = false \/ Forall (fun s => ~ missing_entry (x_bins s 0%nat)) D) ->
  forall same, bins_of D same -> varied same D ->
  forall rho, 0 < rho -> (forall it i, rho <= rate it i <= 1) -> forall j s, nth_error D j = Some s ->
  exists enough, forall cfg fuel t p,
    (c_hier cfg = false \/ g_hier g = true) -> c_log cfg = false -> c_aggregate cfg = true ->
    whole_fit gm bppf erfinv bad LocationRegressor false [g] cfg rate fuel D = Trained t -> (enough <= o_iterations t)%nat ->
    nth_error (whole_predict LocationRegressor false t D) j = Some p ->
    mean_of_cell (same s) D + excess same D s / 2 <= p.
Proof. exact location_above. Qed.
Print Assumptions C134_above.

(** Training makes as many passes as allowed if no other criterion stops it: it does not
    diverge. *)
Theorem C134_passes : forall gm bppf erfinv bad g cfg rate D,
  binned_rows [g] D -> Forall (fun s => 0 < x_w s) D -> D <> [] -> (forall it i, 0 <= rate it i <= 1) ->
  g_smoother g = bin_values -> (g_mnl g = false \/ Forall (fun s => ~ missing_entry (x_bins s 0%nat)) D) ->
  (c_hier cfg = false \/ g_hier g = true) -> c_log cfg = false -> c_aggregate cfg = true ->
  forall same, bins_of D same -> varied same D ->
  c_hier cfg = false -> c_minfactor cfg < 0 -> c_minloss cfg < 0 -> c_maxiter cfg <> 0%nat ->
  exists t, whole_fit gm bppf erfinv bad LocationRegressor false [g] cfg rate (c_maxiter cfg) D = Trained t /\
    o_iterations t = c_maxiter cfg.
Proof. exact location_passes. Qed.
Print Assumptions C134_passes.

(** Targets 0 and 2 in the first bin and 10 in the second: the predictions of the first bin
    approach 1.0010016..., not 1. *)
Example C134_case : forall gm bppf erfinv bad,
  binned_rows [plain_group] lc_data /\ Forall (fun s => 0 < x_w s) lc_data /\ bins_of lc_data lc_same /\ varied lc_same lc_data /\
  mean_of_cell (lc_same (w_row 0%Q 0 1)) lc_data = 1 /\ excess lc_same lc_data (w_row 0%Q 0 1) = 2491 / 2487000 /\
  forall eps, 0 < eps -> exists cfg t p,
    c_log cfg = false /\ c_aggregate cfg = true /\
    whole_fit gm bppf erfinv bad LocationRegressor false [plain_group] cfg ex_rate (c_maxiter cfg) lc_data = Trained t /\
    nth_error (whole_predict LocationRegressor false t lc_data) 0 = Some p /\ Rabs (p - (1 + 2491 / 2487000)) <= eps.
Proof. exact lc_case. Qed.
Print Assumptions C134_case.

(** If the missing values are not learned, the rows without a value get the baseline, and the
    predictions for the rows with a value keep the baseline as their weighted mean, whatever
    the targets of these rows are, the smoother and the number of passes. *)
Theorem C134_unlearned : forall gm bppf erfinv bad g cfg rate D,
  binned_rows [g] D -> Forall (fun s => 0 < x_w s) D -> g_mnl g = true -> c_log cfg = false -> c_aggregate cfg = true ->
  forall complete, (forall s, In s D -> complete s = true <-> ~ missing_entry (x_bins s 0%nat)) ->
  (exists s, In s D /\ complete s = true) ->
  forall fuel t, whole_fit gm bppf erfinv bad LocationRegressor false [g] cfg rate fuel D = Trained t ->
  length (whole_predict LocationRegressor false t D) = length D /\
  (forall j s, nth_error D j = Some s -> missing_entry (x_bins s 0%nat) ->
    nth_error (whole_predict LocationRegressor false t D) j = Some (o_scale t)) /\
  cell_predictions complete D (whole_predict LocationRegressor false t D) = o_scale t * cell_weight complete D.
Proof. exact missing_keeps. Qed.
Print Assumptions C134_unlearned.

(** So the mean targets of the bins are not learned then: with the target 0 in a row with a
    value and 100 in one without, the former is predicted as 50.001 after any number of passes. *)
Theorem C134_unlearned_refuted : forall gm bppf erfinv bad, exists g D s cell,
  binned_rows [g] D /\ Forall (fun s => 0 < x_w s) D /\ g_smoother g = bin_values /\ g_mnl g = true /\
  nth_error D 0 = Some s /\ ~ missing_entry (x_bins s 0%nat) /\ cell_of D s cell /\ mean_of_cell cell D = 0 /\
  forall cfg rate, c_log cfg = false -> c_aggregate cfg = true -> c_hier cfg = false ->
    c_minfactor cfg < 0 -> c_minloss cfg < 0 -> c_maxiter cfg <> 0%nat ->
    exists t, whole_fit gm bppf erfinv bad LocationRegressor false [g] cfg rate (c_maxiter cfg) D = Trained t /\
      o_iterations t = c_maxiter cfg /\ nth_error (whole_predict LocationRegressor false t D) 0 = Some (50 + 1 / 1000).
Proof. exact location_missing_refuted. Qed.
Print Assumptions C134_unlearned_refuted.
