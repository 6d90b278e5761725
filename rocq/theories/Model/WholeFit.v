(** Model of a whole training: [fit] and [predict] of the estimators of
    regression.py, classification.py, location.py and GBSregression.py on rows of
    bin numbers, put together from the models of their parts. Numbers are reals, so
    the rounding of sums is not modelled. The special functions of scipy and the
    smoothing algorithms are section variables. *)
From Coq Require Import ZArith QArith List Bool Reals.
From Verif.Model Require Import Num LexBins Train Predict Link Estimators Gbs.
Import ListNotations.
Local Open Scope R_scope.

(** A row of the training data: the bin numbers of each feature group, the prior
    prediction ([None]: not finite), the target and the weight. *)
Record sample := {
  x_bins : nat -> list fnum;
  x_prior : option R;
  x_y : R;
  x_w : R
}.

(** A feature group as configured. [g_smoother]: the fitted smoother's prediction
    for regular bin [k], from the bin centres, the bin weight sums, the
    uncertainties and the values of the regular bins (features.py:185-198,
    250-254). *)
Record group := {
  g_dim : nat;
  g_hier : bool;
  g_mnl : bool;
  g_smoother : list (list Z) -> list R -> list R -> list R -> nat -> option R
}.

(** [_init_features] and [bind_data] (base.py:439-444, features.py:151-171). *)
Definition bind_group (D : list sample) (i : nat) (g : group) : feature :=
  {| f_dim := g_dim g; f_rows := map (fun s => x_bins s i) D;
     f_hier := g_hier g; f_mnl := g_mnl g; f_ext := false |}.
Fixpoint bind_groups (D : list sample) (i : nat) (gs : list group) : list feature :=
  match gs with
  | [] => []
  | g :: r => bind_group D i g :: bind_groups D (S i) r
  end.

(** The estimators with the parameters of their bin estimates. *)
Inductive kind :=
| NBinomRegressor (a c : R) | PoissonRegressor | BinaryClassifier
| LocationRegressor | LocPoissonRegressor | GBSRegressor (regalpha : R).

(** The link of the estimator (regression.py:63, classification.py:59,
    location.py:20, 163, GBSregression.py:20). *)
Definition kind_link (k : kind) : link :=
  match k with
  | NBinomRegressor _ _ | PoissonRegressor => Log
  | BinaryClassifier => Logit
  | _ => Identity
  end.

(** The prediction of a row from its link prediction (base.py:839-841).
    [CBLocPoissonRegressor] replaces predictions that are not positive by 0
    (location.py:77-79), in [predict] but not in training. For the classifier this is
    the probability of the class 1, the second column of [predict_proba]
    (classification.py:140-142). *)
Definition kind_output (k : kind) (score : R) : R :=
  match k with
  | LocPoissonRegressor => if Rltb 0 score then score else 0
  | _ => unlink_func (kind_link k) score
  end.

(** [loss] (base.py:333-339); the division by a zero sum of weights cannot be
    reached, [_init_global_scale] comes first. *)
Definition squared_loss (prediction y weights : list R) : R :=
  sumR (map2 Rmult (map2 (fun p v => (p - v) * (p - v)) prediction y) weights) / sumR weights.

(** What [fit] leaves: an error, or the baseline and the feature groups, with the
    number of iterations and the last loss. *)
Record model := {
  o_scale : R;
  o_offset : R;
  o_groups : list trained;
  o_iterations : nat;
  o_loss : R
}.
Inductive result :=
| NoBaseline           (* the global scale is not finite *)
| Failed (e : fit_error)
| MoreIterations       (* more passes than [fuel] are needed *)
| Trained (m : model).

Section WholeFit.
Variable gamma_median : R -> R.
Variable beta_ppf : R -> R -> R -> R.
Variable erfinv : R -> R.
(** Stand-in for estimates, uncertainties and losses that are not finite. *)
Variable bad : R.

(** [calc_parameters] of the estimator, with [precalc_parameters]. *)
Definition estimates (k : kind) (lex : list nat) (n : nat) (y w score : list R) : list (option (R * R)) :=
  match k with
  | NBinomRegressor a c =>
      let r := nbinom_parameters gamma_median a c lex n y w score in map2 (fun f u => Some (f, u)) (fst r) (snd r)
  | PoissonRegressor =>
      let r := poisson_parameters gamma_median (poisson_precalc lex n y w) lex n w score in
      map2 (fun f u => Some (f, u)) (fst r) (snd r)
  | BinaryClassifier => classifier_parameters beta_ppf erfinv lex n y w score
  | LocationRegressor => location_parameters lex n y w score
  | LocPoissonRegressor => locpoisson_parameters lex n y w score
  | GBSRegressor regalpha => gbs_parameters regalpha lex n y w score
  end.
Definition estimate_value (e : option (R * R)) : R := match e with Some (f, _) => f | None => bad end.
Definition estimate_uncertainty (e : option (R * R)) : R := match e with Some (_, u) => u | None => bad end.

(** [global_scale_link_] of the estimator. *)
Definition kind_scale (k : kind) (y w : list R) : option R :=
  match k with
  | GBSRegressor _ => gbs_global_scale y w
  | _ => global_scale (kind_link k) y w
  end.
(** [prior_pred_link_offset_] (base.py:413-433).  [CBGBSRegressor] replaces
    [_init_global_scale] (GBSregression.py:96-99) without setting it, so that it
    keeps the 0 of the constructor (base.py:309); its constructor does not take a prior
    prediction column either.  Without such a column the value is not used; the code
    then leaves it at 0. *)
Definition kind_offset (k : kind) (scale : R) (prior : list (option R)) (w : list R) : R :=
  match k with
  | GBSRegressor _ => 0
  | _ => prior_offset (kind_link k) scale prior w
  end.

(** Loss of link predictions. *)
Definition kind_loss (k : kind) (y w score : list R) : R :=
  let prediction := map (unlink_func (kind_link k)) score in
  match k with
  | GBSRegressor _ => match gbs_loss prediction y w with Some l => l | None => bad end
  | _ => squared_loss prediction y w
  end.

(** [calibrate_to_weighted_mean] of the estimator. *)
Definition kind_calibration (k : kind) (features : list feature) (w : list R) (i : nat) (f : list R) : list R :=
  match k with
  | LocationRegressor => location_calibration features w i f
  | _ => f
  end.

(** [calc_parameters] and the smoother of feature group [i]. *)
Definition group_estimates (k : kind) (features : list feature) (y w : list R) (i : nat) (p : preds)
  : list (option (R * R)) :=
  match nth_error features i with
  | Some f => estimates k (f_lex f) (S (f_finite f)) y w (p_factors p)
  | None => []
  end.
Definition group_smoother (k : kind) (gs : list group) (features : list feature) (y w : list R)
    (i : nat) (p : preds) (values : list R) (b : nat) : option R :=
  match nth_error gs i, nth_error features i with
  | Some g, Some f =>
      g_smoother g (arange_multi (f_nbins f)) (bincounts (f_lex f) w (f_finite f))
        (firstn (f_finite f) (map estimate_uncertainty (group_estimates k features y w i p))) values b
  | _, _ => None
  end.

(** The estimator as configured: its kind, whether there is a prior prediction
    column, its feature groups, the settings of the loop and the learning rate. *)
Variable k : kind.
Variable prior_column : bool.
Variable gs : list group.
Variable cfg : settings.
Variable rate : nat -> nat -> R.

Definition linked_column (D : list sample) : option (list (option R)) :=
  if prior_column then Some (linked_prior (kind_link k) (map x_prior D)) else None.

(** [_fit_predict] (base.py:816-829) with at most [fuel] iterations. *)
Definition train (fuel : nat) (D : list sample) (scale offset : R) : option (outcome state) :=
  let y := map x_y D in
  let w := map x_w D in
  let features := bind_groups D 0 gs in
  fit_main cfg features
    (fun i _ p => map estimate_value (group_estimates k features y w i p))
    (fun i _ p => group_smoother k gs features y w i p)
    (kind_calibration k features w) rate
    (fun p => kind_loss k y w (p_factors p)) fuel
    {| p_factors := prior_predictions scale offset (linked_column D) (length D);
       p_exponents := zeros (length D) |}.

Definition whole_fit (fuel : nat) (D : list sample) : result :=
  match kind_scale k (map x_y D) (map x_w D) with
  | None => NoBaseline
  | Some scale =>
      let offset := kind_offset k scale (map x_prior D) (map x_w D) in
      match train fuel D scale offset with
      | None => MoreIterations
      | Some (Raise e) => Failed e
      | Some (Ok st) =>
          Trained {| o_scale := scale; o_offset := offset;
                     o_groups := map2 store (bind_groups D 0 gs) (t_feats st);
                     o_iterations := t_iter st; o_loss := t_loss st |}
      end
  end.

(** [predict] (base.py:839-856) of the trained estimator on further rows, with
    [kind_output]. *)
Definition whole_predict (m : model) (X : list sample) : list R :=
  cb_predict (kind_output k) (o_scale m) (o_offset m) (o_groups m)
    (linked_column X) (map x_bins X).
End WholeFit.
