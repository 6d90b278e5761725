(** Model of a whole training of the price model [CBExponential] (price.py:217-428) and of
    its predictions, put together from the models of its parts. Numbers are reals. *)
From Coq Require Import ZArith List Bool Reals.
From Verif.Model Require Import Num LexBins Train Predict Link Estimators WholeFit Price.
Import ListNotations.
Local Open Scope R_scope.

(** A row with its value in the external column and its prior exponent. Simplified: prior
    exponents are finite and not zero. *)
Record price_sample := { q_row : sample; q_price : fnum; q_exponent : R }.
(** A feature group, and whether it is one of the external groups. *)
Definition price_group : Type := (group * bool)%type.

(** As [bind_groups] of WholeFit.v. *)
Definition bind_price_group (D : list price_sample) (i : nat) (g : price_group) : feature :=
  {| f_dim := g_dim (fst g); f_rows := map (fun r => x_bins (q_row r) i) D;
     f_hier := g_hier (fst g); f_mnl := g_mnl (fst g); f_ext := snd g |}.
Fixpoint bind_price_groups (D : list price_sample) (i : nat) (gs : list price_group) : list feature :=
  match gs with
  | [] => []
  | g :: r => bind_price_group D i g :: bind_price_groups D (S i) r
  end.

(** The columns of [CBLinkPredictions] (price.py:448-474), row by row, and [predict_link]. *)
Definition link_rows (D : list price_sample) (p : preds) : list link_row :=
  map2 (fun r fe => {| lr_factors := fst fe; lr_prior_exponents := q_exponent r; lr_exponents := snd fe;
                       lr_base := external_base (q_price r) |})
    D (combine (p_factors p) (p_exponents p)).
Definition price_scores (D : list price_sample) (p : preds) : list R := map predict_link (link_rows D p).

Section PriceFit.
Variable gamma_median : R -> R.
(** Parameters of the variance, and [var_prior_exponent]. *)
Variables a c var_l : R.
Variable prior_column : bool.
Variable gs : list price_group.
Variable cfg : settings.
Variable rate : nat -> nat -> R.

(** [weights_external / variance] (price.py:294-299, 372-386): rows without a price have no
    weight. *)
Definition external_weight (r : price_sample) (prediction : R) : R :=
  (if isfinite (q_price r) then 1 else 0) * x_w (q_row r) / (a * prediction + c * prediction * prediction).
(** The arguments of [newton_step] (price.py:366-391) of a row in bin [b]. *)
Definition exponent_row (r : price_sample) (l : link_row) (b : nat) : price_row :=
  {| pr_y := x_y (q_row r); pr_p := exp (lr_factors l); pr_x := lr_base l; pr_k := exponents l;
     pr_prior := lr_prior_exponents l; pr_s := external_weight r (exp (predict_link l));
     pr_lkp := ln (exponents l / lr_prior_exponents l); pr_bin := b |}.
Definition exponent_rows (lex : list nat) (D : list price_sample) (p : preds) : list price_row :=
  map2 (fun rl b => exponent_row (fst rl) (snd rl) b) (combine D (link_rows D p)) lex.

(** The weights that a feature is bound with (base.py:681-691): [weights_external]
    (price.py:294-299) for external features. *)
Definition bound_weight (ext : bool) (r : price_sample) : R :=
  if ext then (if isfinite (q_price r) then x_w (q_row r) else 0) else x_w (q_row r).
(** [calc_parameters] (price.py:307-341): estimates and uncertainties. *)
Definition price_estimates (features : list feature) (D : list price_sample) (i : nat) (p : preds) : list R * list R :=
  match nth_error features i with
  | Some f =>
      let n := S (f_finite f) in
      let w := map (fun r => x_w (q_row r)) D in
      if f_ext f then
        match exponent_parameters gamma_median (exponent_rows (f_lex f) D p) var_l
                (bincounts (f_lex f) (map (bound_weight true) D) n) with
        | Some r => r
        | None => ([], [])
        end
      else nbinom_parameters gamma_median a c (f_lex f) n (map (fun r => x_y (q_row r)) D) w (price_scores D p)
  | None => ([], [])
  end.
Definition price_smoothing (features : list feature) (D : list price_sample) (i : nat) (p : preds)
    (values : list R) (b : nat) : option R :=
  match nth_error gs i, nth_error features i with
  | Some g, Some f =>
      g_smoother (fst g) (arange_multi (f_nbins f)) (bincounts (f_lex f) (map (bound_weight (f_ext f)) D) (f_finite f))
        (firstn (f_finite f) (snd (price_estimates features D i p))) values b
  | _, _ => None
  end.
Definition price_loss (D : list price_sample) (p : preds) : R :=
  squared_loss (map exp (price_scores D p)) (map (fun r => x_y (q_row r)) D) (map (fun r => x_w (q_row r)) D).

(** [_get_prior_predictions] (base.py:446-455). *)
Definition price_column (D : list price_sample) : option (list (option R)) :=
  if prior_column then Some (linked_prior Log (map (fun r => x_prior (q_row r)) D)) else None.
(** [fit] (price.py:417-428) with at most [fuel] iterations. *)
Definition price_train (fuel : nat) (D : list price_sample) (scale offset : R) : option (outcome state) :=
  let features := bind_price_groups D 0 gs in
  fit_main cfg features
    (fun i _ p => fst (price_estimates features D i p))
    (fun i _ p => price_smoothing features D i p)
    (fun _ f => f) rate (price_loss D) fuel
    {| p_factors := prior_predictions scale offset (price_column D) (length D); p_exponents := zeros (length D) |}.
Definition price_fit (fuel : nat) (D : list price_sample) : result :=
  let y := map (fun r => x_y (q_row r)) D in
  let w := map (fun r => x_w (q_row r)) D in
  match global_scale Log y w with
  | None => NoBaseline
  | Some scale =>
      let offset := prior_offset Log scale (map (fun r => x_prior (q_row r)) D) w in
      match price_train fuel D scale offset with
      | None => MoreIterations
      | Some (Raise e) => Failed e
      | Some (Ok st) =>
          Trained {| o_scale := scale; o_offset := offset;
                     o_groups := map2 store (bind_price_groups D 0 gs) (t_feats st);
                     o_iterations := t_iter st; o_loss := t_loss st |}
      end
  end.

(** [predict] (price.py:401-415). *)
Definition price_fit_predict (t : model) (X : list price_sample) : list R :=
  map exp (price_scores X (predict_extended (o_groups t)
    {| p_factors := prior_predictions (o_scale t) (o_offset t) (price_column X) (length X); p_exponents := zeros (length X) |}
    (map (fun r => x_bins (q_row r)) X))).
End PriceFit.
