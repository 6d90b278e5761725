(** C138: the unit of the target. *)
From Coq Require Import ZArith QArith List Bool Reals.
From Verif.Model Require Import Num LexBins Train Predict Link Estimators Gbs WholeFit BinSmoothers.
From Verif.Spec Require Import DataSpec TargetUnitSpec.
From Verif.Proofs Require Import TrainExamples WholeExamples DescentExamples CellExamples TargetUnitFacts TargetUnitExamples LocationCellExamples LocUnitExamples.
Import ListNotations.
Local Open Scope R_scope.

(** The background subtraction regressor: with all targets and prior predictions
    multiplied by [b], and the smallest change of the factors, too, the training takes
    the same passes and gives the baseline, contributions and predictions multiplied by
    [b]; a training that fails, fails in the same way. *)
Theorem C138_unit_partial : forall gamma_median beta_ppf erfinv bad regalpha prior gs cfg rate fuel D b,
  0 < b -> -1 <= regalpha -> (forall s, In s D -> 0 <= x_w s) -> noisy_targets D -> c_log cfg = false ->
  c_minfactor cfg < 100 -> b * c_minfactor cfg < 100 -> (forall g, In g gs -> unit_smoother (g_smoother g)) ->
  let k := GBSRegressor regalpha in
  whole_fit gamma_median beta_ppf erfinv bad k prior gs (unit_settings b cfg) rate fuel (map (unit_row b) D) =
    unit_result b (whole_fit gamma_median beta_ppf erfinv bad k prior gs cfg rate fuel D) /\
  forall m m' X, whole_fit gamma_median beta_ppf erfinv bad k prior gs cfg rate fuel D = Trained m ->
    whole_fit gamma_median beta_ppf erfinv bad k prior gs (unit_settings b cfg) rate fuel (map (unit_row b) D) = Trained m' ->
    whole_predict k prior m' (map (unit_row b) X) = map (Rmult b) (whole_predict k prior m X).
Proof. exact gbs_unit. Qed.
Print Assumptions C138_unit_partial.

(** Smoothers that work in every unit. *)
Theorem C138_smoothers_partial : unit_smoother bin_values /\
  (forall s, unit_smoother s -> unit_smoother (cut_unseen s) /\ unit_smoother (normalised s)).
Proof. exact unit_smoothers. Qed.
Print Assumptions C138_smoothers_partial.

(** The hypotheses are met: the targets times 100. *)
Example C138_case : forall gamma_median beta_ppf erfinv bad,
  Forall (fun s => 0 <= x_w s) noisy /\ noisy_targets noisy /\ unit_smoother (g_smoother plain_group) /\
  c_log (n_cfg 2) = false /\ c_minfactor (n_cfg 2) < 100 /\ 100 * c_minfactor (n_cfg 2) < 100 /\
  exists t, whole_fit gamma_median beta_ppf erfinv bad (GBSRegressor 0) false [plain_group] (n_cfg 2) ex_rate 2 noisy = Trained t /\
    whole_fit gamma_median beta_ppf erfinv bad (GBSRegressor 0) false [plain_group] (unit_settings 100 (n_cfg 2)) ex_rate 2
      (map (unit_row 100) noisy) = Trained (unit_model 100 t).
Proof. exact unit_case. Qed.

(** The smoother that takes weighted means does not work in every unit. *)
Theorem C138_smoothing_refuted : ~ unit_smoother (weighted_mean_bins None).
Proof. exact weighted_mean_unit. Qed.
Print Assumptions C138_smoothing_refuted.

(** The baseline of the location regressor never follows the unit, whatever the settings. *)
Theorem C138_location_refuted : forall gamma_median beta_ppf erfinv bad prior gs cfg cfg' rate fuel fuel' D b m m', b <> 1 ->
  whole_fit gamma_median beta_ppf erfinv bad LocationRegressor prior gs cfg rate fuel D = Trained m ->
  whole_fit gamma_median beta_ppf erfinv bad LocationRegressor prior gs cfg' rate fuel' (map (unit_row b) D) = Trained m' ->
  o_scale m' <> b * o_scale m.
Proof. exact location_unit. Qed.
Print Assumptions C138_location_refuted.

(** Both trainings succeed for targets times two. *)
Example C138_location_case : forall gamma_median beta_ppf erfinv bad, exists m m',
  whole_fit gamma_median beta_ppf erfinv bad LocationRegressor false [plain_group] (n_cfg 2) ex_rate 2 lc_data = Trained m /\
  whole_fit gamma_median beta_ppf erfinv bad LocationRegressor false [plain_group] (unit_settings 2 (n_cfg 2)) ex_rate 2
    (map (unit_row 2) lc_data) = Trained m'.
Proof. exact location_two_units. Qed.
