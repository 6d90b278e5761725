(** Model of whole trainings of the estimators that look at the rows of each bin: the
    loss-minimising modes of generic_loss.py and the dispersion estimator of nbinom.py.
    Numbers are reals. *)
From Coq Require Import ZArith List Bool Reals.
From Verif.Model Require Import Num LexBins Train Predict Link Estimators WholeFit Quantile LossModes Dispersion.
Import ListNotations.
Local Open Scope R_scope.

Section BinFit.
Variable row : Type.
Variable bins : row -> nat -> list fnum.
Variable weight : row -> R.
(** Estimate and uncertainty of a bin in an iteration (from 0), from its rows with their
    link predictions without the feature. *)
Variable estimate : nat -> list (row * R) -> R * R.
(** Loss of rows with their link predictions. *)
Variable loss : list (row * R) -> R.
(** Link prediction of a row before the training. *)
Variable start : row -> R.
Variable gs : list group.
Variable cfg : settings.
Variable rate : nat -> nat -> R.

(** As [bind_groups] of WholeFit.v. *)
Definition bind_row_group (D : list row) (i : nat) (g : group) : feature :=
  {| f_dim := g_dim g; f_rows := map (fun r => bins r i) D; f_hier := g_hier g; f_mnl := g_mnl g; f_ext := false |}.
Fixpoint bind_row_groups (D : list row) (i : nat) (l : list group) : list feature :=
  match l with
  | [] => []
  | g :: r => bind_row_group D i g :: bind_row_groups D (S i) r
  end.

(** The rows of a bin with their link predictions, in the order of the data. *)
Definition bin_content (lex : list nat) (rows : list (row * R)) (b : nat) : list (row * R) :=
  map snd (filter (fun e => Nat.eqb (fst e) b) (combine lex rows)).
Definition bin_estimates (features : list feature) (D : list row) (i it : nat) (p : preds) : list (R * R) :=
  match nth_error features i with
  | Some f => map (fun b => estimate it (bin_content (f_lex f) (combine D (p_factors p)) b)) (seq 0 (S (f_finite f)))
  | None => []
  end.
Definition bin_smoothing (features : list feature) (D : list row) (i it : nat) (p : preds) (values : list R) (b : nat)
  : option R :=
  match nth_error gs i, nth_error features i with
  | Some g, Some f =>
      g_smoother g (arange_multi (f_nbins f)) (bincounts (f_lex f) (map weight D) (f_finite f))
        (firstn (f_finite f) (map snd (bin_estimates features D i it p))) values b
  | _, _ => None
  end.

(** [_fit_predict] (base.py:816-829) with at most [fuel] iterations. *)
Definition bin_train (fuel : nat) (D : list row) : option (outcome state) :=
  let features := bind_row_groups D 0 gs in
  fit_main cfg features
    (fun i it p => map fst (bin_estimates features D i it p))
    (fun i it p => bin_smoothing features D i it p)
    (fun _ f => f) rate
    (fun p => loss (combine D (p_factors p))) fuel
    {| p_factors := map start D; p_exponents := zeros (length D) |}.
Definition bin_fit (scale offset : R) (fuel : nat) (D : list row) : result :=
  match bin_train fuel D with
  | None => MoreIterations
  | Some (Raise e) => Failed e
  | Some (Ok st) =>
      Trained {| o_scale := scale; o_offset := offset;
                 o_groups := map2 store (bind_row_groups D 0 gs) (t_feats st);
                 o_iterations := t_iter st; o_loss := t_loss st |}
  end.
End BinFit.

(** ** The loss-minimising modes *)
(** Costs of predictions for targets and weights; [None] is not finite. *)
Definition cost_function := list R -> list R -> list R -> option R.
(** The classes of generic_loss.py:407-805. *)
Inductive loss_mode :=
| MultiplicativeQuantile (quantile : R) | AdditiveQuantile (quantile : R)
| MultiplicativeCosts (costs : cost_function) | AdditiveCosts (costs : cost_function)
| ClassifierCosts (costs : cost_function).
Definition mode_link (m : loss_mode) : link :=
  match m with
  | MultiplicativeQuantile _ | MultiplicativeCosts _ => Log
  | AdditiveQuantile _ | AdditiveCosts _ => Identity
  | ClassifierCosts _ => Logit
  end.
Definition mode_costs (m : loss_mode) : cost_function :=
  match m with
  | MultiplicativeQuantile q | AdditiveQuantile q => fun prediction y w => quantile_costs prediction y w q
  | MultiplicativeCosts c | AdditiveCosts c | ClassifierCosts c => c
  end.
Definition mode_model (m : loss_mode) : R -> list R -> list R :=
  match m with
  | AdditiveQuantile _ | AdditiveCosts _ => model_additive
  | _ => model_multiplicative
  end.

Section LossModes.
Variable sort : list qrow -> list qrow.
Variable minimize : (R -> option R) -> R -> R.
Variable beta_ppf : R -> R -> R -> R.
Variable erfinv : R -> R.
(** Order of the rows of a bin after [argsort], which need not be stable
    (generic_loss.py:68-77). *)
Variable reorder : forall A : Type, list A -> list A.
(** Stand-in for estimates, uncertainties and losses that are not finite. *)
Variable bad : R.
Definition or_bad (v : option R) : R := match v with Some x => x | None => bad end.

Definition mode_uncertainty (m : loss_mode) (y w : list R) : option R :=
  match m with
  | MultiplicativeQuantile _ | MultiplicativeCosts _ => Some (uncertainty_gamma y w)
  | AdditiveQuantile _ | AdditiveCosts _ => uncertainty_gaussian y w
  | ClassifierCosts _ => uncertainty_beta beta_ppf erfinv y w
  end.
(** [optimization] of one bin with the logarithm (generic_loss.py:86-122). *)
Definition loss_rows (l : link) (rows : list (WholeFit.sample * R)) : list Quantile.sample :=
  map (fun e => {| s_y := x_y (fst e); s_pred := unlink_func l (snd e); s_w := x_w (fst e) |}) rows.
Definition mode_estimate (m : loss_mode) (rows : list (WholeFit.sample * R)) : R * R :=
  let neutral_factor := unlink_func (mode_link m) 0 in
  let r := loss_rows (mode_link m) (reorder _ rows) in
  (or_bad (log_parameter neutral_factor (optimization minimize (mode_model m) (mode_costs m) neutral_factor r)),
   or_bad (mode_uncertainty m (map s_y r) (map s_w r))).
(** [loss] (generic_loss.py:241-262, 658, 726, 791). *)
Definition mode_loss (m : loss_mode) (rows : list (WholeFit.sample * R)) : R :=
  let r := loss_rows (mode_link m) rows in or_bad (mode_costs m (map s_pred r) (map s_y r) (map s_w r)).
(** [_init_global_scale] (generic_loss.py:264-267, base.py:396-433). *)
Definition mode_scale (m : loss_mode) (D : list WholeFit.sample) : option R :=
  match m with
  | MultiplicativeQuantile q | AdditiveQuantile q =>
      quantile_global_scale sort (mode_link m) (map (fun s => (x_y s, x_w s)) D) q
  | _ => global_scale (mode_link m) (map x_y D) (map x_w D)
  end.

Variable m : loss_mode.
Variable prior_column : bool.
Variable gs : list group.
Variable cfg : settings.
Variable rate : nat -> nat -> R.
(** [_get_prior_predictions] (base.py:446-455) of one row. *)
Definition mode_start (scale offset : R) (s : WholeFit.sample) : R :=
  if prior_column then match link_option (mode_link m) (x_prior s) with Some x => x + offset | None => scale end else scale.
Definition mode_fit (fuel : nat) (D : list WholeFit.sample) : result :=
  match mode_scale m D with
  | None => NoBaseline
  | Some scale =>
      let offset := prior_offset (mode_link m) scale (map x_prior D) (map x_w D) in
      bin_fit WholeFit.sample x_bins x_w (fun _ => mode_estimate m) (mode_loss m) (mode_start scale offset) gs cfg rate
        scale offset fuel D
  end.
(** [predict] (base.py:839-856). *)
Definition mode_predict (t : model) (X : list WholeFit.sample) : list R :=
  cb_predict (unlink_func (mode_link m)) (o_scale t) (o_offset t) (o_groups t)
    (if prior_column then Some (linked_prior (mode_link m) (map x_prior X)) else None) (map x_bins X).
End LossModes.

(** ** The dispersion estimator *)
Section DispersionFit.
Variable lgamma : R -> option R.
Variable gamma : R.
Variable bayes : bool.
Variable n_steps : nat.
Variable prior_column : bool.
Variable gs : list group.
Variable cfg : settings.
Variable rate : nat -> nat -> R.

(** A row with the prediction of the mean. *)
Definition mean_row : Type := (WholeFit.sample * R)%type.
(** [calc_parameters] (nbinom.py:111-130) for the rows of one bin; the loop over bins is
    that of Dispersion.v. *)
Definition dispersion_estimate (it : nat) (rows : list (mean_row * R)) : R * R :=
  let r := map (fun e => {| c_y := x_y (fst (fst e)); c_mu := snd (fst e); c_link := snd e; c_bin := 0 |}) rows in
  let '(estimates, uncertainties) := calc_parameters lgamma r 1 gamma bayes n_steps (S it) in
  (nth 0 estimates 0, nth 0 uncertainties 0).
(** [loss] (nbinom.py:132-134). *)
Definition dispersion_loss (rows : list (mean_row * R)) : R :=
  loss_nbinom_c lgamma (map (fun e => (x_y (fst (fst e)), snd (fst e), unlink_func Logit (snd e))) rows) gamma.
(** [_get_prior_predictions] (nbinom.py:142-152) of one row: the prior is cut to [0, 1]. *)
Definition linked_dispersion (v : option R) : option R := link_option Logit (option_map (clip 0 1) v).
Definition dispersion_start (s : WholeFit.sample) : R :=
  if prior_column then match linked_dispersion (x_prior s) with Some x => x | None => 0 end else 0.
(** [fit] (nbinom.py:136-140); the scale is neutral (nbinom.py:154-158). *)
Definition dispersion_fit (fuel : nat) (D : list mean_row) : result :=
  bin_fit mean_row (fun r => x_bins (fst r)) (fun r => x_w (fst r)) dispersion_estimate dispersion_loss
    (fun r => dispersion_start (fst r)) gs cfg rate 0 0 fuel D.
(** [predict] (base.py:839-856). *)
Definition dispersion_predict (t : model) (X : list WholeFit.sample) : list R :=
  cb_predict (unlink_func Logit) (o_scale t) (o_offset t) (o_groups t)
    (if prior_column then Some (map (fun s => linked_dispersion (x_prior s)) X) else None) (map x_bins X).
End DispersionFit.
