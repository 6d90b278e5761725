(** C34, C35, C46, C48, C56: regularisation, neutralisation and linear regression. *)
From Coq Require Import List Bool Reals.
From Verif.Model Require Import Train Regularize.
From Verif.Spec Require Import RegularizeSpec.
From Verif.Proofs Require Import RegularizeFacts NeighborFacts NeutralizeFacts RegressionFacts RegularizeExamples.
Import ListNotations.
Local Open Scope R_scope.

(** ** C34 *)
(** [x] are the values, [u] the uncertainties. *)
Theorem C34_shrinkage : forall x u prior, length x = length u -> (forall v, In v u -> 0 < v) ->
  exists r, regularize_to_error_weighted_mean x u prior = Some (map Some r) /\ length r = length x /\
    (forall i, (i < length x)%nat -> between (nth i x 0) (shrinkage_target x u prior) (nth i r 0)) /\
    (forall i j, (i < length x)%nat -> (j < length x)%nat -> nth i u 0 = nth j u 0 ->
       nth i x 0 < nth j x 0 -> nth i r 0 < nth j r 0).
Proof. exact mean_shrinkage. Qed.
Print Assumptions C34_shrinkage.

(** The distance to the target [m] is multiplied with V/(u^2+V), where [V] is the
    weighted variance about [m]. *)
Theorem C34_amount : forall x u prior, length x = length u -> (forall v, In v u -> 0 < v) ->
  match prior with None => (2 <= length x)%nat /\ ~ nearly_all x (nth 0 x 0) | Some p => ~ nearly_all x p end ->
  let m := shrinkage_target x u prior in
  exists V r, V * total (length x) (fun i => 1 / nth i u 0 ^ 2) = total (length x) (fun i => (nth i x 0 - m) ^ 2 / nth i u 0 ^ 2) /\
    0 < V /\ regularize_to_error_weighted_mean x u prior = Some (map Some r) /\ length r = length x /\
    forall i, (i < length x)%nat -> nth i r 0 - m = V / (nth i u 0 ^ 2 + V) * (nth i x 0 - m).
Proof. exact mean_amount. Qed.
Print Assumptions C34_amount.

Theorem C34_constant_unchanged : forall x u prior, length x = length u ->
  match prior with None => (length x <= 1)%nat \/ nearly_all x (nth 0 x 0) | Some p => nearly_all x p end ->
  regularize_to_error_weighted_mean x u prior = Some (map Some x).
Proof. exact mean_unchanged. Qed.
Print Assumptions C34_constant_unchanged.

Theorem C34_different_lengths : forall x u prior,
  regularize_to_error_weighted_mean x u prior = None <-> length x <> length u.
Proof. exact mean_lengths. Qed.
Print Assumptions C34_different_lengths.

(** One zero uncertainty spoils all values. *)
Theorem C34_zero_uncertainty : forall x u prior, length x = length u -> In 0 u ->
  match prior with None => (2 <= length x)%nat /\ ~ nearly_all x (nth 0 x 0) | Some p => ~ nearly_all x p end ->
  regularize_to_error_weighted_mean x u prior = Some (map (fun _ => None) x).
Proof. exact mean_zero_uncertainty. Qed.
Print Assumptions C34_zero_uncertainty.

Example c34_example : regularize_to_error_weighted_mean g_x g_u (Some 3) =
  Some [Some (47 / 29); Some 3; Some (26 / 7)].
Proof. exact ex_c34. Qed.
Example c34_input : length g_x = length g_u /\ (forall v, In v g_u -> 0 < v) /\ ~ nearly_all g_x 3.
Proof. exact ex_c34_input. Qed.
Example c34_zero : regularize_to_error_weighted_mean [1; 3] [0; 1] None = Some [None; None].
Proof. exact ex_c34_zero. Qed.

(** ** C35 *)
(** [v] value, [u] uncertainty, [p] prior expectation, [t] threshold. *)
Theorem C35_insignificant : forall v u p t, 0 < u -> Rabs (v - p) <= t * u -> regularize_to_prior_expectation v u p t = Some p.
Proof. exact prior_insignificant. Qed.
Print Assumptions C35_insignificant.

Theorem C35_significant : forall v u p t, 0 < u -> 0 <= t -> t * u < Rabs (v - p) ->
  exists r, regularize_to_prior_expectation v u p t = Some r /\
    (r - p) ^ 2 = (v - p) ^ 2 - (t * u) ^ 2 /\
    (p < v -> p < r <= v) /\ (v < p -> v <= r < p) /\ (0 < t -> r <> v).
Proof. exact prior_significant. Qed.
Print Assumptions C35_significant.

Theorem C35_monotone : forall v v' u p t r r', 0 < u -> 0 <= t -> v <= v' ->
  regularize_to_prior_expectation v u p t = Some r -> regularize_to_prior_expectation v' u p t = Some r' -> r <= r'.
Proof. exact prior_monotone. Qed.
Print Assumptions C35_monotone.

Example c35_example : regularize_to_prior_expectation 11 2 1 (3 / 2) = Some (1 + sqrt 91) /\
  regularize_to_prior_expectation 3 2 1 (3 / 2) = Some 1 /\ regularize_to_prior_expectation 2 0 1 (3 / 2) = None.
Proof. exact ex_c35. Qed.

(** ** C46 *)
Theorem C46_column_influence_removed : forall n m u, is_table n m u -> (0 < n)%nat -> (0 < m)%nat -> positive_table n m u ->
  forall values fuel, is_table n m values -> (5 <= fuel)%nat ->
  exists r rounds, neutralize_one_dim_influence fuel values u = Some (r, rounds) /\
    is_table n m r /\ (forall j, (j < m)%nat -> column_influence n r u j = 0) /\
    (exists a b, forall i j, (i < n)%nat -> (j < m)%nat -> entry r i j = entry values i j - (a i + b j)) /\
    (1 <= rounds <= 4)%nat /\ (total n (fun i => Rabs (row_influence m r u i)) <= 1 / 100 \/ rounds = 4%nat).
Proof. exact neutralized_clean. Qed.
Print Assumptions C46_column_influence_removed.

Theorem C46_neutral_unchanged : forall n m u, is_table n m u -> (0 < n)%nat -> (0 < m)%nat ->
  forall values fuel, is_table n m values -> (5 <= fuel)%nat ->
  (forall i, (i < n)%nat -> row_influence m values u i = 0) -> (forall j, (j < m)%nat -> column_influence n values u j = 0) ->
  neutralize_one_dim_influence fuel values u = Some (values, 1%nat).
Proof. exact neutral_unchanged. Qed.
Print Assumptions C46_neutral_unchanged.

(** After the last round a large influence of the rows can be left. *)
Theorem C46_row_influence_refuted : exists t u r rounds, is_table 2 2 t /\ is_table 2 2 u /\ positive_table 2 2 u /\
  neutralize_one_dim_influence 5 t u = Some (r, rounds) /\ 18 < row_influence 2 r u 0 /\ row_influence 2 r u 1 < - 18.
Proof. exact row_influence_left. Qed.
Print Assumptions C46_row_influence_refuted.

Example c46_tables : is_table 2 2 n_t /\ is_table 2 2 n_u /\ positive_table 2 2 n_u.
Proof. exact n_tables. Qed.
Example c46_neutral : let t := [[9; -1]; [-1; 9]] in is_table 2 2 t /\
  (forall i, (i < 2)%nat -> row_influence 2 t n_u i = 0) /\ (forall j, (j < 2)%nat -> column_influence 2 t n_u j = 0).
Proof. exact ex_c46_neutral. Qed.

(** ** C48 *)
Theorem C48_unique_minimiser : forall x y w, length y = length x -> length w = length x ->
  (forall i, (i < length x)%nat -> 0 <= nth i w 0) -> spread_out x w ->
  exists a b, linear_regression x y w = Some (a, b) /\
    forall a' b', squared_error x y w a b <= squared_error x y w a' b' /\
      (squared_error x y w a' b' = squared_error x y w a b -> a' = a /\ b' = b).
Proof. exact regression_minimiser. Qed.
Print Assumptions C48_unique_minimiser.

Theorem C48_recovers_linear_data : forall x w a b, length w = length x ->
  (forall i, (i < length x)%nat -> 0 <= nth i w 0) -> spread_out x w ->
  linear_regression x (map (fun v => a + b * v) x) w = Some (a, b).
Proof. exact regression_exact. Qed.
Print Assumptions C48_recovers_linear_data.

(** Without spread the coefficients are not finite. *)
Theorem C48_degenerate : forall x y w, length y = length x -> length w = length x ->
  (forall i, (i < length x)%nat -> 0 <= nth i w 0) -> ~ spread_out x w -> linear_regression x y w = None.
Proof. exact regression_degenerate. Qed.
Print Assumptions C48_degenerate.

(** The extrapolating smoother continues linear profiles, whatever the
    uncertainties. *)
Theorem C48_extrapolation : forall eps x u a b, 0 < eps -> length u = length x ->
  (exists i j, (i < length x)%nat /\ (j < length x)%nat /\ nth i x 0 <> nth j x 0) ->
  exists c, extrapolator_fit eps x u (map (fun v => a + b * v) x) = Some c /\ forall t, extrapolator_predict c t = a + b * t.
Proof. exact extrapolator_exact. Qed.
Print Assumptions C48_extrapolation.

Example c48_example : linear_regression lr_x [1; 7; 5] lr_w = Some (1, 2) /\ length lr_w = length lr_x /\
  (forall i, (i < length lr_x)%nat -> 0 <= nth i lr_w 0) /\ spread_out lr_x lr_w.
Proof. exact ex_c48. Qed.
Example c48_degenerate : ~ spread_out [1; 2] [1; 0].
Proof. exact ex_c48_degenerate. Qed.

(** ** C56 *)
Theorem C56_shrinkage : forall x u i, length x = length u -> (3 <= length x)%nat -> (i < length x)%nat ->
  (exists j k, (j < length x)%nat /\ (k < length x)%nat /\ neighbor i j /\ neighbor i k /\
     0 < nth j u 0 /\ 0 < nth k u 0 /\ nth j x 0 <> nth k x 0) ->
  exists r v, regularize_neighbors 3 x u = Some r /\ length r = length x /\ nth_error r i = Some (Some v) /\
    between (nth i x 0) (window_mean x u i) v /\ (~ 0 < nth i u 0 -> v = window_mean x u i) /\
    (forall lo hi, (forall j, (j < length x)%nat -> neighbor i j -> 0 < nth j u 0 -> lo <= nth j x 0 <= hi) -> lo <= v <= hi).
Proof. exact neighbors_shrinkage. Qed.
Print Assumptions C56_shrinkage.

(** A bin whose neighbourhood does not vary is not returned, but replaced by NaN. *)
Theorem C56_constant_window : forall x u i, length x = length u -> (3 <= length x)%nat -> (i < length x)%nat ->
  (forall j k, (j < length x)%nat -> (k < length x)%nat -> neighbor i j -> neighbor i k ->
     0 < nth j u 0 -> 0 < nth k u 0 -> nth j x 0 = nth k x 0) ->
  exists r, regularize_neighbors 3 x u = Some r /\ nth_error r i = Some None.
Proof. exact neighbors_undefined. Qed.
Print Assumptions C56_constant_window.

Theorem C56_constant_unchanged_refuted : exists x u, length x = length u /\ (forall v, In v u -> 0 < v) /\
  (forall v, In v x -> v = 7) /\ (3 <= length x)%nat /\ regularize_neighbors 3 x u = Some (map (fun _ => None) x).
Proof. exact neighbors_constant. Qed.
Print Assumptions C56_constant_unchanged_refuted.

Theorem C56_few_bins : forall x u w, (length x < 3)%nat ->
  regularize_neighbors w x u = regularize_to_error_weighted_mean x u None.
Proof. exact neighbors_short. Qed.
Print Assumptions C56_few_bins.

Example c56_example : exists r v, regularize_neighbors 3 [1; 3; 5] [1; 1; 2] = Some r /\ nth_error r 0 = Some (Some v) /\
  window_mean [1; 3; 5] [1; 1; 2] 0 = 2 /\ v = 3 / 2.
Proof. exact ex_c56. Qed.
Example c56_input : length [1; 3; 5] = length [1; 1; 2] /\ (3 <= length [1; 3; 5])%nat /\
  exists j k, (j < 3)%nat /\ (k < 3)%nat /\ neighbor 0 j /\ neighbor 0 k /\
     0 < nth j [1; 1; 2] 0 /\ 0 < nth k [1; 1; 2] 0 /\ nth j [1; 3; 5] 0 <> nth k [1; 3; 5] 0.
Proof. exact ex_c56_input. Qed.
