(** Vocabulary for mirrored data: negated targets, swapped classes. *)
From Coq Require Import ZArith List Bool Reals.
From Verif.Model Require Import Num LexBins Train Predict Link WholeFit.
Import ListNotations.
Local Open Scope R_scope.

(** The target, prediction or prior prediction seen in the mirror: the probability of
    the other class for the classifier, the negative number for regressors. *)
Definition mirror_value (k : kind) (v : R) : R := match k with BinaryClassifier => 1 - v | _ => - v end.
Definition mirror_row (k : kind) (s : sample) : sample :=
  {| x_bins := x_bins s; x_prior := option_map (mirror_value k) (x_prior s);
     x_y := mirror_value k (x_y s); x_w := x_w s |}.

(** The model in which the baseline and all contributions have the other sign; the
    number of iterations and the loss are the same, and a failure is the same failure. *)
Definition mirror_group (g : trained) : trained :=
  {| m_dim := m_dim g; m_nbins := m_nbins g; m_ext := m_ext g;
     m_values := map Ropp (m_values g); m_missing := - m_missing g; m_smoother := m_smoother g |}.
Definition mirror_model (m : model) : model :=
  {| o_scale := - o_scale m; o_offset := - o_offset m; o_groups := map mirror_group (o_groups m);
     o_iterations := o_iterations m; o_loss := o_loss m |}.
Definition mirror_result (r : result) : result :=
  match r with Trained m => Trained (mirror_model m) | _ => r end.

(** A smoother that gives negated values for negated estimates. *)
Definition odd_smoother (s : list (list Z) -> list R -> list R -> list R -> nat -> option R) : Prop :=
  forall centres counts uncertainties values b,
    s centres counts uncertainties (map Ropp values) b = option_map Ropp (s centres counts uncertainties values b).

(** The part of [whole_fit] after the baseline is found. *)
Definition fit_from (gamma_median : R -> R) (beta_ppf : R -> R -> R -> R) (erfinv : R -> R) (bad : R)
    (k : kind) (prior_column : bool) (gs : list group) (cfg : settings) (rate : nat -> nat -> R)
    (fuel : nat) (scale : R) (D : list sample) : result :=
  let offset := kind_offset k scale (map x_prior D) (map x_w D) in
  match train gamma_median beta_ppf erfinv bad k prior_column gs cfg rate fuel D scale offset with
  | None => MoreIterations
  | Some (Raise e) => Failed e
  | Some (Ok st) =>
      Trained {| o_scale := scale; o_offset := offset;
                 o_groups := map2 store (bind_groups D 0 gs) (t_feats st);
                 o_iterations := t_iter st; o_loss := t_loss st |}
  end.

(** What is known of scipy's functions: the quantiles of the beta distribution lie
    inside of the unit interval and exchanging the parameters mirrors them; the inverse
    error function is odd and strictly increasing. *)
Definition mirrored_beta (beta_ppf : R -> R -> R -> R) : Prop :=
  forall a b p, 0 < a -> 0 < b -> 0 < p < 1 ->
    0 < beta_ppf a b p < 1 /\ beta_ppf b a (1 - p) = 1 - beta_ppf a b p.
Definition odd_increasing (f : R -> R) : Prop :=
  (forall x, f (- x) = - f x) /\ (forall x y, -1 < x -> x < y -> y < 1 -> f x < f y).

(** The targets an estimator accepts for the mirror to make sense. *)
Definition mirrored_targets (k : kind) (D : list sample) : Prop :=
  match k with
  | BinaryClassifier => forall s, In s D -> x_y s = 0 \/ x_y s = 1
  | _ => True
  end.
