(** Model of the Johnson quantile-parametrised distributions and the quantile
    regressor chain (quantile_matching.py). Floats are reals; [None] is a result that
    is not a number. Arguments of the quantile functions lie strictly between 0 and 1. *)
From Coq Require Import List Bool Reals.
From Verif.Model Require Import Train.
Import ListNotations.
Local Open Scope R_scope.

(** A frozen distribution of scipy.stats; [norm()] is an argument of the definitions
    that use it. *)
Record dist := { d_ppf : R -> R; d_cdf : R -> R }.
(** scipy.stats.logistic. *)
Definition logistic : dist := {| d_ppf := fun p => ln (p / (1 - p)); d_cdf := fun x => 1 / (1 + exp (- x)) |}.
Definition arccosh (x : R) : R := ln (x + sqrt (x * x - 1)).

(** [SinhLogistic] (quantile_matching.py:288-336). *)
Definition sinh_ppf (shape p : R) : R :=
  let xlog := 1 / 4 * ln (p / (1 - p)) in
  if Rltb 0 shape then arcsinh (shape * xlog) / shape
  else if Rltb shape 0 then sinh (shape * xlog) / shape
  else xlog.
Definition sinh_cdf (shape x : R) : R :=
  let xlog := if Rltb 0 shape then sinh (shape * x) / shape
              else if Rltb shape 0 then arcsinh (shape * x) / shape
              else x in
  1 / (1 + exp (-4 * xlog)).
Definition sinh_pdf (shape x : R) : R :=
  if Rltb 0 shape then cosh (shape * x) / cosh (2 / shape * sinh (shape * x)) ^ 2
  else if Rltb shape 0 then 1 / sqrt ((shape * x) ^ 2 + 1) / cosh (2 / shape * arcsinh (shape * x)) ^ 2
  else 1 / cosh (2 * x) ^ 2.
Definition sinh_logistic (shape : R) : dist := {| d_ppf := sinh_ppf shape; d_cdf := sinh_cdf shape |}.

(** [BaseDist] (quantile_matching.py:339-358). *)
Definition base_dist (d : dist) (alpha : R) : dist :=
  let width := d_ppf d (1 - alpha) in
  {| d_ppf := fun p => d_ppf d p / width; d_cdf := fun x => d_cdf d (x * width) |}.

(** The choice of [phi] (quantile_matching.py:44-49, 205-210, 417-424); [None]: Exception.
    Only the extended versions know [sinhlogistic]. *)
Inductive version := Normal | Logistic | SinhLogistic | OtherVersion.
Definition choose_phi (norm : dist) (v : version) : option dist :=
  match v with Normal => Some norm | Logistic => Some logistic | _ => None end.
Definition choose_phi_extended (norm : dist) (shape : R) (v : version) : option dist :=
  match v with
  | Normal => Some norm
  | Logistic => Some logistic
  | SinhLogistic => Some (sinh_logistic shape)
  | OtherVersion => None
  end.

(** A symmetric-percentile triplet, and the check of the constructors
    (quantile_matching.py:55-56, 216-217, 426-427). *)
Record triplet := { qv_low : R; qv_median : R; qv_high : R }.
Definition monotonic (t : triplet) : bool :=
  negb (Rltb (qv_median t) (qv_low t)) && negb (Rltb (qv_high t) (qv_median t)).

(** The steps common to the constructors of J_QPD_S and J_QPD_B (68-72, 230-234):
    [n], and the values for positive, negative and zero skewness. *)
Definition skewness (L B H : R) : R := L + H - 2 * B.
Definition sign_n (L B H : R) : R :=
  if Reqb (skewness L B H) 0 then 0 else if Rltb 0 (skewness L B H) then 1 else -1.
Definition by_sign (L B H pos neg zero : R) : R :=
  if Reqb (skewness L B H) 0 then zero else if Rltb 0 (skewness L B H) then pos else neg.
Definition smaller_gap (L B H : R) : R := if Rltb (B - L) (H - B) then B - L else H - B.

(** Parameters of J_QPD_S (quantile_matching.py:58-91). [None]: values not above the
    bound, two equal values, or no skewness; then [delta] or [kappa] is infinite or not
    a number, and so are all results below. *)
Record qpd_s := { s_l : R; s_c : R; s_n : R; s_theta : R; s_delta : R; s_kappa : R }.
Definition positive (x : R) : bool := Rltb 0 x.
Definition fit_s (phi : dist) (alpha : R) (t : triplet) (l : R) : option qpd_s :=
  let c := d_ppf phi (1 - alpha) in
  if positive (qv_low t - l) && positive (qv_median t - l) && positive (qv_high t - l) then
    let L := ln (qv_low t - l) in
    let H := ln (qv_high t - l) in
    let B := ln (qv_median t - l) in
    if Reqb (smaller_gap L B H) 0 || Reqb c 0 then None else
    let delta := 1 / c * sinh (arccosh ((H - L) / (2 * smaller_gap L B H))) in
    if Reqb delta 0 then None else
    Some {| s_l := l; s_c := c; s_n := sign_n L B H;
            s_theta := by_sign L B H (qv_low t - l) (qv_high t - l) (qv_median t - l);
            s_delta := delta;
            s_kappa := 1 / (delta * c) * (if Rltb (H - B) (B - L) then H - B else B - L) |}
  else None.
(** [ppf] and [cdf] for one sample and one argument (quantile_matching.py:93-165). *)
Definition ppf_s (phi : dist) (q : qpd_s) (x : R) : R :=
  s_l q + s_theta q * exp (s_kappa q * sinh (arcsinh (d_ppf phi x * s_delta q) + arcsinh (s_n q * s_c q * s_delta q))).
Definition cdf_s (phi : dist) (q : qpd_s) (x : R) : option R :=
  if Rltb x (s_l q) then None
  else if Reqb x (s_l q) then Some 0
  else Some (d_cdf phi (1 / s_delta q * sinh (arcsinh (1 / s_kappa q * ln ((x - s_l q) / s_theta q))
                                            - arcsinh (s_n q * s_c q * s_delta q)))).

(** Parameters of J_QPD_B (quantile_matching.py:219-244), [ppf] and [cdf] (quantile_matching.py:246-285). *)
Record qpd_b := { b_l : R; b_u : R; b_c : R; b_n : R; b_xi : R; b_delta : R; b_kappa : R }.
Definition inside (l u x : R) : bool := Rltb l x && Rltb x u.
Definition fit_b (phi : dist) (alpha : R) (t : triplet) (l u : R) : option qpd_b :=
  let c := d_ppf phi (1 - alpha) in
  if inside l u (qv_low t) && inside l u (qv_median t) && inside l u (qv_high t) then
    let L := d_ppf phi ((qv_low t - l) / (u - l)) in
    let H := d_ppf phi ((qv_high t - l) / (u - l)) in
    let B := d_ppf phi ((qv_median t - l) / (u - l)) in
    if Reqb (smaller_gap L B H) 0 || Reqb c 0 then None else
    let delta := 1 / c * arccosh ((H - L) / (2 * smaller_gap L B H)) in
    if Reqb delta 0 then None else
    Some {| b_l := l; b_u := u; b_c := c; b_n := sign_n L B H; b_xi := by_sign L B H L H B;
            b_delta := delta; b_kappa := (H - L) / sinh (2 * delta * c) |}
  else None.
Definition ppf_b (phi : dist) (q : qpd_b) (x : R) : R :=
  b_l q + (b_u q - b_l q) * d_cdf phi (b_xi q + b_kappa q * sinh (b_delta q * (d_ppf phi x + b_n q * b_c q))).
Definition cdf_b (phi : dist) (q : qpd_b) (x : R) : option R :=
  if Rltb x (b_l q) || Rltb (b_u q) x then None
  else if Reqb x (b_l q) then Some 0
  else if Reqb x (b_u q) then Some 1
  else Some (d_cdf phi (1 / b_delta q * arcsinh (1 / b_kappa q * (d_ppf phi ((x - b_l q) / (b_u q - b_l q)) - b_xi q))
                        - b_n q * b_c q)).

(** The classes work on arrays of samples: the constructor raises a ValueError
    ([None]) if one triplet is not monotonic; with [inner] the k-th argument belongs to
    the k-th sample, otherwise the result has a row per argument and a column per sample. *)
Definition fit_samples {D} (fit1 : triplet -> D) (ts : list triplet) : option (list D) :=
  if forallb monotonic ts then Some (map fit1 ts) else None.
Definition apply_outer {D A} (f : D -> R -> A) (ds : list D) (xs : list R) : list (list A) :=
  map (fun x => map (fun d => f d x) ds) xs.
Definition apply_inner {D A} (f : D -> R -> A) (ds : list D) (xs : list R) : list A := map2 f ds xs.
Definition ppf_s_opt (phi : dist) (q : option qpd_s) (x : R) : option R :=
  match q with Some q => Some (ppf_s phi q x) | None => None end.
Definition ppf_b_opt (phi : dist) (q : option qpd_b) (x : R) : option R :=
  match q with Some q => Some (ppf_b phi q x) | None => None end.
Definition cdf_s_opt (phi : dist) (q : option qpd_s) (x : R) : option R :=
  match q with Some q => cdf_s phi q x | None => None end.
Definition cdf_b_opt (phi : dist) (q : option qpd_b) (x : R) : option R :=
  match q with Some q => cdf_b phi q x | None => None end.

(** [unconstrained_calc] (quantile_matching.py:361-378). *)
Record johnson := { j_gamma : R; j_xi : R; j_kappa : R; j_delta : R }.
Definition unconstrained_calc (L B H : R) : option johnson :=
  if Reqb (skewness L B H) 0 then Some {| j_gamma := 0; j_xi := B; j_kappa := H - B; j_delta := 1 |}
  else
    let gamma := if Rltb 0 (skewness L B H) then -1 else 1 in
    let xi := if Rltb gamma 0 then L else H in
    let theta := if Rltb gamma 0 then (B - L) / (H - L) else (H - B) / (H - L) in
    if Reqb theta 0 then None
    else let delta := 1 / arccosh (1 / (2 * theta)) in
         Some {| j_gamma := gamma; j_xi := xi; j_kappa := (H - L) / sinh (2 / delta); j_delta := delta |}.
(** The internal unconstrained quantile and its inverse. *)
Definition johnson_ppf (d : dist) (alpha : R) (j : johnson) (x : R) : R :=
  j_xi j + j_kappa j * sinh ((d_ppf (base_dist d alpha) x - j_gamma j) / j_delta j).
Definition johnson_cdf (d : dist) (alpha : R) (j : johnson) (z : R) : option R :=
  if Reqb (j_kappa j) 0 then None
  else Some (d_cdf (base_dist d alpha) (j_gamma j + j_delta j * arcsinh ((z - j_xi j) / j_kappa j))).

(** The transformations (quantile_matching.py:613-652) for numpy floats. *)
Definition tiny : R := 1 / 10 ^ 12.
Definition log_opt (z : R) : option R := if Rltb 0 z then Some (ln z) else None.
Definition transform_from_bounds (x l u : R) : option R :=
  let z := (x - l) / (u - l) in
  if Reqb z 1 then None
  else let z := z / (1 - z) in log_opt (if Reqb z 0 then tiny else z).
Definition back_transform_in_bounds (z l u : R) : R := l + (u - l) * (1 / (1 + exp (- z))).
Definition transform_from_semibound_lower (x l : R) : option R :=
  let z := x - l in log_opt (if Reqb z 0 then tiny else z).
Definition back_transform_in_semibound_lower (z l : R) : R := l + exp z.
Definition transform_from_semibound_upper (x u : R) : option R :=
  let z := u - x in log_opt (if Reqb z 0 then tiny else z).
Definition back_transform_in_semibound_upper (z u : R) : R := u - exp z.

(** The extended versions (quantile_matching.py:381-610): a transformation into the
    unconstrained space and back. [Error]: the ValueError of the constructor. *)
Inductive extended := Error | NotANumber | Extended (j : johnson).
Definition fit_extended (into : R -> option R) (t : triplet) : extended :=
  if monotonic t then
    match into (qv_low t), into (qv_high t), into (qv_median t) with
    | Some L, Some H, Some B => match unconstrained_calc L B H with Some j => Extended j | None => NotANumber end
    | _, _, _ => NotANumber
    end
  else Error.
Definition ppf_extended (d : dist) (alpha : R) (back : R -> R) (e : extended) (x : R) : option R :=
  match e with Extended j => Some (back (johnson_ppf d alpha j x)) | _ => None end.
Definition cdf_extended (d : dist) (alpha : R) (into : R -> option R) (e : extended) (x : R) : option R :=
  match e with
  | Extended j => match into x with Some z => johnson_cdf d alpha j z | None => None end
  | _ => None
  end.
(** The three pairs of transformations: J_QPD_extended_U (430, 438, 443),
    J_QPD_extended_S (503-505, 517, 521), J_QPD_extended_B (580-582, 594, 598). The
    value of the last [cdf] at the upper bound itself is not modelled. *)
Definition into_u (x : R) : option R := Some x.
Definition back_u (z : R) : R := z.
Definition into_s (l x : R) : option R := transform_from_semibound_lower x l.
Definition back_s (l z : R) : R := back_transform_in_semibound_lower z l.
Definition into_b (l u x : R) : option R := transform_from_bounds x l u.
Definition back_b (l u z : R) : R := back_transform_in_bounds z l u.

(** [QPD_RegressorChain] (quantile_matching.py:692-824). A sample carries its features;
    [train] of the three estimators takes samples and transformed targets ([None] for
    NaN or infinity) and returns the prediction function. *)
Inductive bound := SemiBound | Bound.
Section Chain.
Context {X : Type}.
Definition estimator : Type := list X -> list (option R) -> X -> R.
Variables (est_median est_lowq est_highq : estimator) (bnd : bound) (l u : R).

Definition back_median (z : R) : R :=
  match bnd with
  | SemiBound => back_transform_in_semibound_lower z l
  | Bound => back_transform_in_bounds z l u
  end.
Definition keep {A} (mask : list bool) (a : list A) : list A :=
  map snd (filter fst (combine mask a)).
(** [fit] (quantile_matching.py:774-806). [None] is the ValueError of numpy when the
    upper bounds, not restricted to the mask (804), do not fit the masked targets; a
    single masked target is stretched to the number of samples, which the estimator
    refuses. *)
Definition chain_fit (xs : list X) (y : list R) : option ((X -> R) * (X -> R) * (X -> R)) :=
  let m := est_median xs (map (fun v => match bnd with
                                          | SemiBound => transform_from_semibound_lower v l
                                          | Bound => transform_from_bounds v l u
                                          end) y) in
  let pred_median := map (fun x => back_median (m x)) xs in
  let ratio := map2 Rdiv y pred_median in
  let mask := map (fun r => Rltb r 1) ratio in
  let y_low := map2 (fun r pm => transform_from_bounds r (l / pm) 1) (keep mask ratio) (keep mask pred_median) in
  let lo := est_lowq (keep mask xs) y_low in
  let pred_lowq := map2 (fun x pm => back_transform_in_bounds (lo x) l pm) xs pred_median in
  let rel := map2 Rdiv (map2 Rminus y pred_median) (map2 Rminus pred_median pred_lowq) in
  let mask := map (fun r => Rltb 0 r) rel in
  match bnd with
  | SemiBound =>
      Some (m, lo, est_highq (keep mask xs) (map (fun r => transform_from_semibound_lower r 0) (keep mask rel)))
  | Bound =>
      let upper := map2 (fun pm pl => (u - pm) / (pm - pl)) pred_median pred_lowq in
      if Nat.eqb (length (keep mask rel)) (length upper)
      then Some (m, lo, est_highq (keep mask xs) (map2 (fun r up => transform_from_bounds r 0 up) (keep mask rel) upper))
      else None
  end.
(** [predict] (quantile_matching.py:808-824) for one sample: the triplet; the fourth
    component is the distribution J_QPD_S or J_QPD_B of it. *)
Definition chain_predict (fitted : (X -> R) * (X -> R) * (X -> R)) (x : X) : triplet :=
  let '(m, lo, hi) := fitted in
  let pred_median := back_median (m x) in
  {| qv_low := back_transform_in_bounds (lo x) l pred_median;
     qv_median := pred_median;
     qv_high := match bnd with
                | SemiBound => back_transform_in_semibound_lower (hi x) pred_median
                | Bound => back_transform_in_bounds (hi x) pred_median u
                end |}.
End Chain.
