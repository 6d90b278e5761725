(** Model of the fits of distributions to quantiles (quantile_matching.py:655-689 and
    827-985). Floats are reals; [None] is a result that is not a number. The optimisers
    and the distributions of scipy are arguments. *)
From Coq Require Import List Bool Reals.
From Verif.Model Require Import Train Qpd Diagnostics.
Import ListNotations.
Local Open Scope R_scope.

(** Sum of options: not a number if one term is not. *)
Fixpoint sum_opt (l : list (option R)) : option R :=
  match l with
  | [] => Some 0
  | x :: r => match x, sum_opt r with Some a, Some b => Some (a + b) | _, _ => None end
  end.

(** ** [fit_sinhlogistic_shape] (quantile_matching.py:655-689) *)
(** An object of a class J_QPD_extended_*: base distribution, lower quantile and the
    parameters, which the constructor calculates from the triplet alone. *)
Record qpd_object := { q_phi : dist; q_alpha : R; q_params : extended; q_back : R -> R }.
Inductive shape_bound := Semi | Both | Unbounded | OtherBound.
Definition transformations (b : shape_bound) (l u : R) : option ((R -> option R) * (R -> R)) :=
  match b with
  | Semi => Some (into_s l, back_s l)
  | Both => Some (into_b l u, back_b l u)
  | Unbounded => Some (into_u, back_u)
  | OtherBound => None
  end.
(** The constructors with version sinhlogistic (408-430, 480-508, 556-585). *)
Definition construct (into : R -> option R) (back : R -> R) (alpha : R) (t : triplet) (shape : R) : qpd_object :=
  {| q_phi := sinh_logistic shape; q_alpha := alpha; q_params := fit_extended into t; q_back := back |}.
Definition object_ppf (o : qpd_object) (x : R) : option R := ppf_extended (q_phi o) (q_alpha o) (q_back o) (q_params o) x.
(** The assignments in [fit_shape] (677-678). *)
Definition assign_shape (o : qpd_object) (shape : R) : qpd_object :=
  {| q_phi := sinh_logistic shape; q_alpha := q_alpha o; q_params := q_params o; q_back := q_back o |}.
(** [emd] (682). *)
Definition mean_distance (ppf : R -> option R) (p q : list R) : option R :=
  match sum_opt (map2 (fun x v => match ppf x with Some f => Some (Rabs (v - f)) | None => None end) p q) with
  | Some s => Some (s / INR (length p))
  | None => None
  end.
(** [np.arange(stepsize / 2.0, 1 - stepsize / 2.0, stepsize)] for 0.001 (685-686). *)
Definition probability_grid : list R := map (fun k => 1 / 2000 + INR k / 1000) (seq 0 999).

Section Shape.
(** [np.sort], [mstats.mquantiles], [minimize_scalar] ([None]: it raises). *)
Variables (sort : list R -> list R) (mquantiles : list R -> list R -> list R)
          (minimize_scalar : (R -> option R) -> option R).
(** The three calls of [np.quantile] (665-667). *)
Definition sample_triplet (alpha : R) (y : list R) : option triplet :=
  let q := interpolated_quantile (sort y) in
  match q alpha, q (1 / 2), q (1 - alpha) with
  | Some a, Some m, Some b => Some {| qv_low := a; qv_median := m; qv_high := b |}
  | _, _, _ => None
  end.
Inductive shape_result := Refused | Failed | Shape (s : R).
(** [Refused]: the exception for another bound or a triplet that is not monotonic;
    [Failed]: no observations, or the exception of the optimiser. *)
Definition fit_sinhlogistic_shape (alpha l u : R) (b : shape_bound) (y : list R) : shape_result :=
  match transformations b l u with
  | None => Refused
  | Some (into, back) =>
      match sample_triplet alpha y with
      | None => Failed
      | Some t =>
          let jqpd := construct into back alpha t 0 in
          match q_params jqpd with
          | Error => Refused
          | _ =>
              let q := mquantiles y probability_grid in
              match minimize_scalar (fun shape => mean_distance (object_ppf (assign_shape jqpd shape)) probability_grid q) with
              | Some s => Shape s
              | None => Failed
              end
          end
      end
  end.
End Shape.

(** ** The quantile fits (quantile_matching.py:827-985) *)
(** A frozen distribution of scipy; [None] also for invalid parameters. *)
Record frozen := { z_ppf : R -> option R; z_cdf : R -> option R }.
Definition invalid : frozen := {| z_ppf := fun _ => None; z_cdf := fun _ => None |}.
(** Location and scale of a standard distribution: the scale must be positive, the
    argument of [ppf] a probability (0 and 1 may give infinities, they are [None]). *)
Definition located (d : dist) (loc scale : R) : frozen :=
  if Rltb 0 scale then
    {| z_ppf := fun p => if Rltb 0 p && Rltb p 1 then Some (loc + scale * d_ppf d p) else None;
       z_cdf := fun x => Some (d_cdf d ((x - loc) / scale)) |}
  else invalid.

Inductive mode := Ppf | Dist | Cdf | OtherMode.
Inductive curve := Quantiles (f : R -> option R) | Distribution (d : frozen) | Probabilities (f : R -> option R) | InvalidMode.
(** The last lines of the three functions (856-863, 895-902, 956-963). *)
Definition returned (m : mode) (d : frozen) : curve :=
  match m with
  | Ppf => Quantiles (z_ppf d)
  | Dist => Distribution d
  | Cdf => Probabilities (z_cdf d)
  | OtherMode => InvalidMode
  end.

Section CurveFit.
(** [curve_fit(f, xdata, ydata)[0]] for functions of two parameters. *)
Variable curve_fit : (R -> R -> R -> option R) -> list R -> list R -> R * R.

(** [quantile_fit_gaussian] (827-863). *)
Definition gaussian (norm : dist) (mu sigma : R) : frozen := located norm mu sigma.
Definition quantile_fit_gaussian (norm : dist) (quantiles values : list R) (m : mode) : curve :=
  let '(mu, sigma) := curve_fit (fun x mu sigma => z_ppf (gaussian norm mu sigma) x) quantiles values in
  returned m (gaussian norm mu sigma).

(** [quantile_fit_gamma] (866-902); [std a] is scipy's gamma distribution with shape
    parameter [a] and scale 1. The start value p0 is part of [curve_fit]. *)
Definition gamma_dist (std : R -> dist) (alpha beta : R) : frozen :=
  if Rltb 0 alpha && negb (Reqb beta 0) then located (std alpha) 0 (1 / beta) else invalid.
Definition quantile_fit_gamma (std : R -> dist) (quantiles values : list R) (m : mode) : curve :=
  let '(alpha, beta) := curve_fit (fun x alpha beta => z_ppf (gamma_dist std alpha beta) x) quantiles values in
  returned m (gamma_dist std alpha beta).

(** [_nbinom_cdf_mu_var] and [quantile_fit_nbinom] (905-963); [std n p] is scipy's
    negative binomial distribution, valid for positive [n] and 0 < p <= 1. *)
Definition nbinom_n (mu var : R) : R := mu * mu / (var - mu).
Definition nbinom_p (mu var : R) : R := mu / var.
Definition nbinom_dist (std : R -> R -> dist) (mu var : R) : frozen :=
  if Reqb var mu || Reqb var 0 then invalid
  else
    let n := nbinom_n mu var in
    let p := nbinom_p mu var in
    if Rltb 0 n && Rltb 0 p && Rleb p 1 then
      {| z_ppf := fun x => if Rltb 0 x && Rltb x 1 then Some (d_ppf (std n p) x) else None;
         z_cdf := fun x => Some (d_cdf (std n p) x) |}
    else invalid.
Definition quantile_fit_nbinom (std : R -> R -> dist) (quantiles values : list R) (m : mode) : curve :=
  let '(mu, var) := curve_fit (fun x mu var => z_cdf (nbinom_dist std mu var) x) values quantiles in
  returned m (nbinom_dist std mu var).
End CurveFit.

(** [quantile_fit_spline] (966-985): an interpolating cubic spline on [0, 1] that keeps
    the boundary values outside (ext=3). *)
Definition quantile_fit_spline (spline : list R -> list R -> R -> R) (quantiles values : list R) (x : R) : R :=
  spline quantiles values (Rmax 0 (Rmin 1 x)).
