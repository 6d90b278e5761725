(** Model of the uncertainties and of the baseline of the loss-minimising modes
    (generic_loss.py). Numbers are reals; [None] is a float that is not finite. *)
From Coq Require Import List Bool Reals.
From Verif.Model Require Import Num LexBins Train Predict Link Estimators Quantile.
Import ListNotations.
Local Open Scope R_scope.

(** [uncertainty_gamma] (generic_loss.py:540-546). *)
Definition uncertainty_gamma (y weights : list R) : R :=
  let alpha_prior := 2 in
  let alpha_posterior := sumR (map2 Rmult weights y) + alpha_prior in
  sqrt (ln (1 + alpha_posterior) - ln alpha_posterior).

(** [uncertainty_gaussian] (generic_loss.py:549-573). Without rows the NaN of the
    mean does not reach the result; with rows of total weight zero it does. *)
Definition gaussian_w0 : R := 1 / 100.
Definition gaussian_of_rows (y weights : list R) : option R :=
  let sum_weights := sumR weights in
  if Reqb sum_weights 0 then None
  else
    let weighted_mean_y := sumR (map2 Rmult y weights) / sum_weights in
    let residual_sum := sumR (map2 (fun w v => w * (v - weighted_mean_y) ^ 2) weights y) in
    let variance := residual_sum / sum_weights in
    let variance_prior := if Rleb variance (1 / 1000000000) then 1 else variance in
    let n_prior := 1 in
    let a_0 := 1 / 2 * n_prior in
    let b_0 := a_0 * variance_prior in
    let a := a_0 + 1 / 2 * sum_weights in
    let b := b_0 + 1 / 2 * residual_sum in
    let variance_y := b / a in
    let w := map (fun x => x / variance_y) weights in
    let sum_w := sumR w + gaussian_w0 in
    let sum_vw := sumR (map2 Rmult weights w) + gaussian_w0 in
    Some (sqrt (sum_vw / sum_w ^ 2)).
Definition uncertainty_gaussian (y weights : list R) : option R :=
  match y with
  | [] => Some (sqrt (gaussian_w0 / gaussian_w0 ^ 2))
  | _ => gaussian_of_rows y weights
  end.

(** [uncertainty_beta] (generic_loss.py:576-587). *)
Section Beta.
Variable beta_ppf : R -> R -> R -> R.
Variable erfinv : R -> R.
Definition uncertainty_beta (y weights : list R) : option R :=
  let alpha_posterior := sumR (map2 Rmult weights y) + beta_prior in
  let beta_posterior := sumR (map2 (fun w v => w * (1 - v)) weights y) + beta_prior in
  let '(perc1, perc2) := percentiles alpha_posterior beta_posterior in
  option_map snd (gaussian_matching erfinv (beta_ppf alpha_posterior beta_posterior) perc1 perc2).
End Beta.

(** [quantile_global_scale] (generic_loss.py:377-404); the offset is that of
    base.py:410-433. *)
Definition quantile_global_scale (sort : list qrow -> list qrow) (l : link) (rows : list qrow) (quantile : R)
  : option R :=
  link_option l (continuous_quantile sort rows quantile).
