(** C42, C67, C68, C69: root finding, Newton step, predictions and feature groups of the
    exponential price model. *)
From Coq Require Import String List Bool Reals QArith Qreals Lra.
From Verif.Model Require Import Num Train SmootherChoice Price.
From Verif.Spec Require Import PriceSpec.
From Verif.Proofs Require Import PriceFacts.
Import ListNotations.
Local Open Scope R_scope.

(** ** C42 *)
(** [r_calls] lists the parameters at which the gradient was evaluated. *)
Theorem C42_terminates : forall gradient step valid x_l x_r epsilon n start, one_per_bin step ->
  exists r, newton_bisect gradient step valid x_l x_r epsilon (S n) start = Some r /\ (List.length (r_calls r) <= S n)%nat.
Proof. exact bisect_terminates. Qed.
Print Assumptions C42_terminates.

(** Right ends are at most doubled ten times, and all evaluated and returned parameters
    lie in the bracket; bins without finite results are set to one. *)
Theorem C42_bracket : forall gradient step valid x_l x_r epsilon n start r,
  one_per_bin gradient -> one_per_bin step -> bracketed x_l x_r ->
  List.length valid = List.length x_l -> (forall s, start = Some s -> List.length s = List.length x_l) ->
  newton_bisect gradient step valid x_l x_r epsilon n start = Some r ->
  forall i lo hi, nth_error x_l i = Some lo -> nth_error x_r i = Some hi ->
  exists k, (k <= 10)%nat /\ nth_error (r_xr r) i = Some (hi * 2 ^ k) /\
  forall l, In l (r_calls r ++ [r_l r]) -> exists v, nth_error l i = Some v /\ (lo <= v <= hi * 2 ^ k \/ v = 1).
Proof. exact bisect_bracket. Qed.
Print Assumptions C42_bracket.

(** A valid bin with finite results never leaves the bracket. *)
Theorem C42_bracket_finite : forall gradient step valid x_l x_r epsilon n start r,
  one_per_bin gradient -> one_per_bin step -> bracketed x_l x_r ->
  List.length valid = List.length x_l -> (forall s, start = Some s -> List.length s = List.length x_l) ->
  newton_bisect gradient step valid x_l x_r epsilon n start = Some r ->
  forall i lo hi, nth_error valid i = Some true -> (forall l s, nth_error (step l) i = Some s -> all_finite s) ->
  nth_error x_l i = Some lo -> nth_error (r_xr r) i = Some hi ->
  forall l, In l (r_calls r ++ [r_l r]) -> exists v, nth_error l i = Some v /\ lo <= v <= hi.
Proof. exact bisect_finite_bracket. Qed.
Print Assumptions C42_bracket_finite.

(** The bracket shrinks around the sign change: after a negative gradient all later
    parameters are at least as large, after another one at most as large. *)
Theorem C42_progress : forall gradient step valid x_l x_r epsilon n start r,
  one_per_bin gradient -> one_per_bin step -> bracketed x_l x_r ->
  List.length valid = List.length x_l -> (forall s, start = Some s -> List.length s = List.length x_l) ->
  newton_bisect gradient step valid x_l x_r epsilon n start = Some r ->
  forall i, nth_error valid i = Some true -> (forall l s, nth_error (step l) i = Some s -> all_finite s) ->
  forall pre l post s j v l' w, r_calls r = pre ++ l :: post -> nth_error (step l) i = Some s -> jac s = RFin j ->
    nth_error l i = Some v -> In l' (post ++ [r_l r]) -> nth_error l' i = Some w -> (j < 0 -> v <= w) /\ (0 <= j -> w <= v).
Proof. exact bisect_progress. Qed.
Print Assumptions C42_progress.

(** If the iterations are not used up, each such bin has a small gradient or lies
    within epsilon of an end of its bracket: an original end or a parameter with the
    corresponding sign of the gradient. *)
Theorem C42_stops : forall gradient step valid x_l x_r epsilon n start r,
  one_per_bin gradient -> one_per_bin step -> bracketed x_l x_r ->
  List.length valid = List.length x_l -> (forall s, start = Some s -> List.length s = List.length x_l) ->
  newton_bisect gradient step valid x_l x_r epsilon n start = Some r -> (List.length (r_calls r) < n)%nat ->
  forall i lo hi, nth_error valid i = Some true -> (forall l s, nth_error (step l) i = Some s -> all_finite s) ->
  nth_error x_l i = Some lo -> nth_error (r_xr r) i = Some hi ->
  exists v s j, nth_error (r_l r) i = Some v /\ nth_error (step (r_l r)) i = Some s /\ jac s = RFin j /\
    (Rabs j < epsilon \/
     (exists p, v - epsilon < p <= v /\ (p = lo \/ seen step (r_calls r) i (fun j => j < 0) p)) \/
     (exists p, v <= p < v + epsilon /\ (p = hi \/ seen step (r_calls r) i (fun j => 0 <= j) p))).
Proof. exact bisect_stops. Qed.
Print Assumptions C42_stops.

(** Inverse curvatures are positive. Missing: curvatures that are no number, for which
    the property fails. *)
Theorem C42_variance_partial : forall gradient step valid x_l x_r epsilon n start r,
  newton_bisect gradient step valid x_l x_r epsilon n start = Some r ->
  (forall l s i, In l (r_calls r) -> nth_error (step l) i = Some s -> hess s <> RNaN) ->
  Forall positive_variance (r_variance r).
Proof. exact bisect_variance. Qed.
Print Assumptions C42_variance_partial.
Theorem C42_nan_refuted : exists gradient step valid x_l x_r r, one_per_bin gradient /\ one_per_bin step /\ bracketed x_l x_r /\
  newton_bisect gradient step valid x_l x_r (1 / 100) 10 None = Some r /\ r_variance r = [RNaN].
Proof. exact bisect_nan. Qed.
Print Assumptions C42_nan_refuted.

(** The exponents of the price model, for all data: at most ten evaluations, factors in
    [0, 2048] and positive variances. *)
Theorem C42_exponents : forall rows var_l weightsums, exists r, exponent_bins rows var_l weightsums = Some r /\
  (List.length (r_calls r) <= 10)%nat /\ Forall (fun l => 0 <= l <= 2048) (r_l r) /\ Forall positive_variance (r_variance r).
Proof. exact exponent_range. Qed.
Print Assumptions C42_exponents.

(** A run that meets the hypotheses: the right end 1/2 is doubled twice, the root 3/2 is
    found with the second evaluation, and the bin without weight gets one. *)
Example C42_example : newton_bisect ex_gradient ex_step [true; false] [0; 0] [1 / 2; 2] (1 / 100) 10 None =
  Some {| r_l := [3 / 2; 1]; r_variance := [RFin 1; RFin 1]; r_xl := [0; 0]; r_xr := [2; 2]; r_calls := [[1; 1]; [3 / 2; 1]] |}.
Proof. exact ex_bisect. Qed.
Example C42_example_finite : forall i l s, nth_error (ex_step l) i = Some s -> all_finite s.
Proof. exact ex_step_finite. Qed.

(** ** C67 *)
Theorem C67_newton_step : forall rows var_l ls b l, nth_error ls b = Some l -> 0 < l -> rows_in b rows <> [] ->
  exists s j h g, nth_error (newton_step rows var_l ls) b = Some s /\ jac s = RFin j /\ hess s = RFin h /\
    derivable_pt_lim (bin_loss rows var_l b) l j /\
    (forall x, 0 < x -> derivable_pt_lim (bin_loss rows var_l b) x (g x)) /\ derivable_pt_lim g l h /\
    (h <> 0 -> new_l s = RFin (l - j / h)) /\ (h = 0 -> new_l s = RNaN).
Proof. exact step_exact. Qed.
Print Assumptions C67_newton_step.

Example C67_example : nth_error [1; 1] 1 = Some 1 /\ 0 < 1 /\ rows_in 1 [ex_row] <> [].
Proof. split; [reflexivity|split; [lra|discriminate]]. Qed.

(** ** C68 *)
Theorem C68_form : forall prior prior_exponent x contributions,
  price_predict prior prior_exponent x contributions =
  exp (prior + contribution false contributions + prior_exponent * exp (contribution true contributions) * external_base x).
Proof. exact price_form. Qed.
Print Assumptions C68_form.
Theorem C68_missing : forall prior prior_exponent x contributions, (forall q, x <> Fin q) ->
  price_predict prior prior_exponent x contributions = exp (prior + contribution false contributions).
Proof. exact price_missing. Qed.
Print Assumptions C68_missing.
Theorem C68_at_one : forall prior prior_exponent contributions,
  price_predict prior prior_exponent (Fin 1) contributions = exp (prior + contribution false contributions).
Proof. exact price_at_one. Qed.
Print Assumptions C68_at_one.
Theorem C68_decreasing : forall prior prior_exponent p q contributions, prior_exponent < 0 -> (p < q)%Q ->
  price_predict prior prior_exponent (Fin q) contributions < price_predict prior prior_exponent (Fin p) contributions.
Proof. exact price_decreasing. Qed.
Print Assumptions C68_decreasing.
Theorem C68_increasing : forall prior prior_exponent p q contributions, 0 < prior_exponent -> (p < q)%Q ->
  price_predict prior prior_exponent (Fin p) contributions < price_predict prior prior_exponent (Fin q) contributions.
Proof. exact price_increasing. Qed.
Print Assumptions C68_increasing.
Example C68_default : default_prior_exponent < 0 /\ (1 # 2 < 3 # 4)%Q.
Proof. split; [unfold default_prior_exponent; lra|reflexivity]. Qed.

(** ** C69 *)
Theorem C69_accepted : forall K (standard external : list (@group_or_id K)), (forall g, In g standard -> of_type None g) ->
  (forall g, In g external -> of_type (Some "external"%string) g) ->
  combine_feature_groups (Some standard) (Some external) =
    Some (map (fun g => (columns_of g, None)) standard ++ map (fun g => (columns_of g, Some "external"%string)) external) /\
  combine_feature_groups (Some standard) None = Some (map (fun g => (columns_of g, None)) standard).
Proof. exact @groups_accepted. Qed.
Print Assumptions C69_accepted.
Theorem C69_rejected : forall K (standard : list (@group_or_id K)) external, (exists g, In g standard /\ ~ of_type None g) \/
  (exists gs g, external = Some gs /\ In g gs /\ ~ of_type (Some "external"%string) g) -> combine_feature_groups (Some standard) external = None.
Proof. exact @groups_rejected. Qed.
Print Assumptions C69_rejected.
Example C69_example : combine_feature_groups (Some [Single 1%nat; Tuple [2; 3]%nat]) (Some [Single 1%nat; Id [4%nat] (Some "external"%string)]) =
  Some [([1%nat], None); ([2; 3]%nat, None); ([1%nat], Some "external"%string); ([4%nat], Some "external"%string)] /\
  combine_feature_groups (Some [Id [1%nat] (Some "external"%string)]) None = None.
Proof. split; reflexivity. Qed.
