(** C139: spline smoothers. *)
From Coq Require Import List Sorted Bool Reals.
From Verif.Model Require Import Train LsqSpline.
From Verif.Spec Require Import LsqSplineSpec.
From Verif.Proofs Require Import LsqSplineFacts LsqSplineExamples.
Import ListNotations.
Local Open Scope R_scope.

(** A degree is refused exactly if it exceeds five or is not below the number of bins. *)
Theorem C139_degree : forall lsq_spline knots degree st X y,
  snd (lsq_fit lsq_spline knots degree st X y) = DegreeError <-> ((5 < degree)%nat \/ (length X <= degree)%nat).
Proof. exact degree_checked. Qed.
Print Assumptions C139_degree.

(** A fit that fails leaves the smoother as it was, after one that succeeds there is a
    prediction for every position, and there is none before. *)
Theorem C139_history : forall lsq_spline knots degree st X y,
  (snd (lsq_fit lsq_spline knots degree st X y) <> Learned -> fst (lsq_fit lsq_spline knots degree st X y) = st) /\
  (snd (lsq_fit lsq_spline knots degree st X y) = Learned ->
     forall q, exists p, spline_predict (fst (lsq_fit lsq_spline knots degree st X y)) q = Some p /\ length p = length q) /\
  (forall q, spline_predict None q = None).
Proof. exact states. Qed.
Print Assumptions C139_history.

(** Values that lie on a spline of the degree with the knots are reproduced, whatever the
    weights. *)
Theorem C139_reproduced_partial : forall lsq_spline knots degree st X p st',
  follows_lsq lsq_spline -> StronglySorted Rlt knots -> (forall r, In r X -> 0 < snd r) -> is_spline degree knots p ->
  lsq_fit lsq_spline knots degree st X (map p (map fst X)) = (st', Learned) ->
  spline_predict st' (map fst X) = Some (map p (map fst X)).
Proof. exact reproduced. Qed.
Print Assumptions C139_reproduced_partial.

(** For bins of the same weight, the fitted spline has the least sum of squared deviations,
    every bin counted according to its weight. *)
Theorem C139_equal_partial : forall lsq_spline knots degree st X y w s,
  follows_lsq lsq_spline -> StronglySorted Rlt knots -> 0 < w -> (forall r, In r X -> snd r = w) ->
  lsq_fit lsq_spline knots degree st X y = (Some s, Learned) ->
  is_spline degree knots s /\
  forall s', is_spline degree knots s' -> deviations by_weight X y s <= deviations by_weight X y s'.
Proof. exact equal_weights. Qed.
Print Assumptions C139_equal_partial.

(** Smoothing splines: the documented limit of the weighted sum of squared deviations for
    weights of at least one, and interpolation for the smoothing factor zero. *)
Theorem C139_smoothing_partial : forall univariate_spline k s st X y st' f,
  follows_univariate univariate_spline -> univariate_fit univariate_spline k s st X y = (st', Learned) -> st' = Some f ->
  ((forall r, In r X -> 1 <= snd r) -> deviations by_weight X y f <= smoothing_factor s X) /\
  (s = Some 0 -> length y = length X -> (forall r, In r X -> snd r <> 0) -> spline_predict st' (map fst X) = Some y).
Proof. exact smoothed. Qed.
Print Assumptions C139_smoothing_partial.

(** For bins of different weights it is not the least: the weights are squared. Whatever
    scipy returns for the values 0, 0 and 1 of bins of weights 1, 1 and 2, another line is better. *)
Theorem C139_weights_refuted : forall lsq_spline knots st st' s, follows_lsq lsq_spline -> knots = [] ->
  lsq_fit lsq_spline knots 1 st three_bins three_values = (st', Learned) -> st' = Some s ->
  exists s', is_spline 1 [] s' /\ deviations by_weight three_bins three_values s' < deviations by_weight three_bins three_values s.
Proof. exact unequal_weights. Qed.
Print Assumptions C139_weights_refuted.

(** A function that follows the documentation of scipy learns these bins. *)
Example C139_case : follows_lsq some_lsq /\
  lsq_fit some_lsq [] 1 None three_bins three_values = (Some best_line, Learned) /\
  spline_predict (Some best_line) [0; 1] = Some [-4 / 21; 8 / 21].
Proof. exact some_follows. Qed.
