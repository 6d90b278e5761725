(** Model of the exponential price model (price.py): lists of feature groups, the
    root finding for the exponents, the Newton step and the prediction. *)
From Coq Require Import String List Bool Reals QArith Qreals.
From Verif.Model Require Import Num Train SmootherChoice Estimators.
Import ListNotations.
Local Open Scope R_scope.

(** [combine_lists_of_feature_groups] and [_check_feature_groups] (price.py:23-60);
    [None]: ValueError. *)
Section Groups.
Context {K : Type}.
Definition external_type : string := "external"%string.
Definition is_standard (id : list K * option string) : bool := match snd id with None => true | Some _ => false end.
Definition is_external (id : list K * option string) : bool :=
  match snd id with Some t => String.eqb t external_type | None => false end.
Definition combine_feature_groups (standard external : option (list (@group_or_id K))) : option (list (list K * option string)) :=
  match standard with
  | None => None
  | Some st =>
      let st := map (fun g => create_feature_id g None) st in
      match external with
      | Some ex =>
          let ex := map (fun g => create_feature_id g (Some external_type)) ex in
          if forallb is_standard st && forallb is_external ex then Some (st ++ ex) else None
      | None => if forallb is_standard st then Some st else None
      end
  end.
End Groups.

(** Floats. *)
Inductive rfloat := RFin (r : R) | RInf | RNInf | RNaN.
Definition is_finite (f : rfloat) : bool := match f with RFin _ => true | _ => false end.
Definition negative (f : rfloat) : bool :=
  match f with RFin r => Rltb r 0 | RNInf => true | _ => false end.
Definition value (f : rfloat) : R := match f with RFin r => r | _ => 0 end.

(** Root finding. [gradient] is the module's function [newton_step] with
    [only_jac=True], which [_set_right_bound] calls whatever the argument
    [newton_step] of [newton_bisect] is; [step] is that argument. Both take one
    parameter per bin. *)
Record step_result := { new_l : rfloat; jac : rfloat; hess : rfloat }.
Section RootFinding.
Variable gradient : list R -> list rfloat.
Variable step : list R -> list step_result.

(** [_set_right_bound] (price.py:63-76). *)
Fixpoint set_right_bound (max_iter : nat) (x : list R) (valid : list bool) : list R :=
  match max_iter with
  | O => x
  | S i =>
      let index := map2 andb valid (map negative (gradient x)) in
      if existsb (fun b => b) index
      then set_right_bound i (map2 (fun (b : bool) v => if b then v * 2 else v) index x) valid
      else x
  end.

(** State of one bin. *)
Record bin := { b_valid : bool; b_xl : R; b_xr : R; b_val : R }.
(** price.py:139-140. *)
Definition check_valid (b : bin) (r : step_result) : bin :=
  {| b_valid := b_valid b && (is_finite (jac r) && is_finite (hess r) && is_finite (new_l r));
     b_xl := b_xl b; b_xr := b_xr b; b_val := b_val b |}.
(** price.py:141. *)
Definition bin_converged (epsilon : R) (b : bin) (r : step_result) : bool :=
  Rltb (Rabs (value (jac r))) epsilon || Rltb (Rabs (b_val b - b_xl b)) epsilon ||
  Rltb (Rabs (b_xr b - b_val b)) epsilon || negb (b_valid b).
(** price.py:144-153. *)
Definition update_bin (b : bin) (r : step_result) : bin :=
  if b_valid b then
    let xl := if Rltb (value (jac r)) 0 then b_val b else b_xl b in
    let xr := if Rltb (value (jac r)) 0 then b_xr b else b_val b in
    let l_new := value (new_l r) in
    {| b_valid := true; b_xl := xl; b_xr := xr;
       b_val := if Rltb xr l_new || Rltb l_new xl then (xl + xr) / 2 else l_new |}
  else {| b_valid := false; b_xl := b_xl b; b_xr := b_xr b; b_val := 1 |}.
(** The loop (price.py:137-153); [hs] are the values of [hess]. The third component
    lists the arguments of the calls of [newton_step]. *)
Fixpoint bisect_loop (iterations : nat) (epsilon : R) (bins : list bin) (hs : list rfloat) : list bin * list rfloat * list (list R) :=
  match iterations with
  | O => (bins, hs, [])
  | S i =>
      let l := map b_val bins in
      let res := step l in
      let bins := map2 check_valid bins res in
      if forallb (fun b => b) (map2 (bin_converged epsilon) bins res)
      then (bins, map hess res, [l])
      else
        let hs := map2 (fun b r => if b_valid b then hess r else RFin 1) bins res in
        let '(bins, hs, trace) := bisect_loop i epsilon (map2 update_bin bins res) hs in
        (bins, hs, l :: trace)
  end.
(** price.py:155-163. *)
Definition inverse_hessian (h : rfloat) : rfloat :=
  match h with
  | RFin r => if Reqb r 0 then RInf else if Rleb (1 / r) 0 then RFin 1 else RFin (1 / r)
  | RInf | RNInf => RFin 1
  | RNaN => RNaN
  end.
(** [newton_bisect] (price.py:79-167); [None]: no iterations, [hess] is undefined. *)
Record bisect_result := { r_l : list R; r_variance : list rfloat; r_xl : list R; r_xr : list R; r_calls : list (list R) }.
Definition initial_bins (valid : list bool) (x_l x_r : list R) (start_values : option (list R)) : list bin :=
  let middle := map2 (fun r l => (r + l) / 2) x_r x_l in
  let l := match start_values with
           | None => middle
           | Some s => if existsb (fun b => b) (map2 Rltb s x_l) || existsb (fun b => b) (map2 Rltb x_r s) then middle else s
           end in
  map2 (fun vx rl => {| b_valid := fst vx; b_xl := snd vx; b_xr := fst rl; b_val := snd rl |}) (combine valid x_l) (combine x_r l).
Definition newton_bisect (valid : list bool) (x_l x_r : list R) (epsilon : R) (maximal_iterations : nat)
    (start_values : option (list R)) : option bisect_result :=
  let x_r := set_right_bound 10 x_r valid in
  match maximal_iterations with
  | O => None
  | _ =>
      let '(bins, hs, calls) := bisect_loop maximal_iterations epsilon (initial_bins valid x_l x_r start_values) [] in
      Some {| r_l := map b_val bins; r_variance := map inverse_hessian hs; r_xl := x_l; r_xr := x_r; r_calls := calls |}
  end.
End RootFinding.

(** [newton_step] (price.py:170-214). A row carries target, factor, base, exponent of
    the other features, prior exponent, weight over variance, logarithm of exponent
    over prior exponent, and bin. *)
Record price_row := { pr_y : R; pr_p : R; pr_x : R; pr_k : R; pr_prior : R; pr_s : R; pr_lkp : R; pr_bin : nat }.
Section NewtonStep.
Variables (rows : list price_row) (var_l : R).
Definition lex : list nat := map pr_bin rows.
Definition mu (r : price_row) (l : R) : R := pr_p r * exp (pr_k r * l * pr_x r).
Definition slope (r : price_row) : R := pr_k r * pr_x r.
(** The number of rows in the bin of the row. *)
Definition bin_count (b : nat) : R := bin_total lex (map (fun _ => 1) rows) b.
Definition jac_prior (r : price_row) (l : R) : R :=
  2 * (pr_k r * (pr_k r * l - pr_prior r) + l - 1 + (pr_lkp r + 2 * ln l) / l) / var_l / bin_count (pr_bin r).
Definition jac_data (r : price_row) (l : R) : R := - (2 * slope r * mu r l * (pr_y r - mu r l)) * pr_s r.
Definition hess_prior (r : price_row) (l : R) : R :=
  2 * (pr_k r * pr_k r + 1 + (2 - (pr_lkp r + 2 * ln l)) / l / l) / var_l / bin_count (pr_bin r).
Definition hess_data (r : price_row) (l : R) : R := 2 * slope r * slope r * mu r l * mu r l * pr_s r + slope r * jac_data r l.
Definition jacobian (b : nat) (l : R) : R := bin_total lex (map (fun r => jac_data r l + jac_prior r l) rows) b.
Definition hessian (b : nat) (l : R) : R := bin_total lex (map (fun r => hess_data r l + hess_prior r l) rows) b.
Definition empty_bin (b : nat) : bool := negb (existsb (Nat.eqb b) lex).
(** The logarithm of zero is -inf, that of negative parameters NaN. *)
Definition bin_step (b : nat) (l : R) : step_result :=
  if empty_bin b then {| new_l := RNaN; jac := RFin 0; hess := RFin 0 |}
  else if Rltb 0 l then
    let j := jacobian b l in
    let h := hessian b l in
    {| new_l := if Reqb h 0 then RNaN else RFin (l - j / h); jac := RFin j; hess := RFin h |}
  else if Reqb l 0 then {| new_l := RNaN; jac := RNInf; hess := RInf |}
  else {| new_l := RNaN; jac := RNaN; hess := RNaN |}.
(** [l] has [minlength] entries. *)
Definition newton_step (l : list R) : list step_result := map2 bin_step (seq 0 (length l)) l.
Definition newton_gradient (l : list R) : list rfloat := map jac (newton_step l).
End NewtonStep.

(** [gamma_momemt_matching] (price.py:431-445) up to the call of
    [_calc_factors_and_uncertainties]: alpha and beta of one bin. *)
Definition moment_matching (factor : R) (variance : rfloat) : R * R :=
  match variance with
  | RFin v => if Reqb v 0 then (0, 0) else let beta := factor / v in (beta * factor, beta)
  | RInf | RNInf => (0, 0)
  | RNaN => (0, 0)
  end.

(** [_calc_parameters_exponent] (price.py:345-403): the bounds start at 0 and 2, the
    values at 1, and [epsilon_jacobian] is 0.01. *)
Definition exponent_bins (rows : list price_row) (var_l : R) (weightsums : list R) : option bisect_result :=
  newton_bisect (newton_gradient rows var_l) (newton_step rows var_l) (map (fun w => Rltb 0 w) weightsums)
    (map (fun _ => 0) weightsums) (map (fun _ => 2) weightsums) (1 / 100) 10 (Some (map (fun _ => 1) weightsums)).
Definition exponent_parameters (gamma_median : R -> R) (rows : list price_row) (var_l : R) (weightsums : list R) : option (list R * list R) :=
  match exponent_bins rows var_l weightsums with
  | None => None
  | Some r =>
      let ab := map2 moment_matching (r_l r) (r_variance r) in
      Some (calc_factors_and_uncertainties gamma_median (map fst ab) (map snd ab))
  end.

(** Predictions: [CBLinkPredictions] (price.py:448-474), one row of its frame;
    [_init_external_column] (282-307); [predict_extended] (409-423) with the
    contributions of the features in their order. *)
Record link_row := { lr_factors : R; lr_prior_exponents : R; lr_exponents : R; lr_base : R }.
Definition external_base (x : fnum) : R := match x with Fin q => Q2R q - 1 | _ => 0 end.
Definition start_row (prior_prediction prior_exponent : R) (x : fnum) : link_row :=
  {| lr_factors := prior_prediction; lr_prior_exponents := prior_exponent; lr_exponents := 0; lr_base := external_base x |}.
Definition exponents (r : link_row) : R := lr_prior_exponents r * exp (lr_exponents r).
Definition predict_link (r : link_row) : R := lr_factors r + exponents r * lr_base r.
Definition update_row (r : link_row) (contribution : bool * R) : link_row :=
  let (ext, pred) := contribution in
  if ext
  then {| lr_factors := lr_factors r; lr_prior_exponents := lr_prior_exponents r; lr_exponents := lr_exponents r + pred; lr_base := lr_base r |}
  else {| lr_factors := lr_factors r + pred; lr_prior_exponents := lr_prior_exponents r; lr_exponents := lr_exponents r; lr_base := lr_base r |}.
Definition price_predict (prior_prediction prior_exponent : R) (x : fnum) (contributions : list (bool * R)) : R :=
  exp (predict_link (fold_left update_row contributions (start_row prior_prediction prior_exponent x))).
(** [_get_prior_exponent] (price.py:309-313). *)
Definition default_prior_exponent : R := -1.
