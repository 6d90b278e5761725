(** C91-C94: diagram of predictions and targets, smeared cdf values, saved smoothers,
    observers. *)
From Coq Require Import ZArith List Bool Reals Sorted String.
From Verif.Model Require Import Train Quantile Diagnostics Pickle.
From Verif.Spec Require Import QuantileSpec DiagnosticsSpec PickleSpec.
From Verif.Proofs Require Import TrainExamples GenericFacts DiagnosticsFacts SmearFacts PickleFacts ObserverFacts DiagnosticsRuns.
Import ListNotations.
Local Open Scope R_scope.

(** ** C91 *)
(** Positive weights. Missing: weights may be zero, see the refutation. *)
Theorem C91_diagram_partial : forall sort y pred w, sorts sort -> pred <> [] -> List.length y = List.length pred ->
  List.length w = List.length pred -> (forall v, In v w -> 0 < v) ->
  exists h lo hi bins,
    in_sample_histograms sort y pred w None = Some h /\ range_of pred lo hi /\ Forall2 (in_part lo hi 100) pred bins /\
    shows (map Z.of_nat bins) lo hi y w mean_of h /\
    (binary y -> h_errors h = None) /\
    (~ binary y -> exists errors, h_errors h = Some errors /\ map fst errors = map fst (h_means h) /\
                                  Forall (fun e => brackets (snd e) /\
      (all_equal w -> sigma_errors even_quantile (bin_members (fst e) (map Z.of_nat bins) y w) (snd e)) /\
      (~ all_equal w -> sigma_errors is_quantile (bin_members (fst e) (map Z.of_nat bins) y w) (snd e))) errors).
Proof. exact histogram_ok. Qed.
Print Assumptions C91_diagram_partial.

Theorem C91_quantile_partial : forall sort y pred w, sorts sort -> pred <> [] -> List.length y = List.length pred ->
  List.length w = List.length pred -> (forall v, In v w -> 0 < v) -> forall q, 0 < q <= 1 ->
  exists h lo hi bins value,
    in_sample_histograms sort y pred w (Some q) = Some h /\ range_of pred lo hi /\ Forall2 (in_part lo hi 100) pred bins /\
    (forall rows, weighted_rows rows -> is_quantile q rows (value rows)) /\
    shows (map Z.of_nat bins) lo hi y w value h /\ h_errors h = None.
Proof. exact histogram_quantile_ok. Qed.
Print Assumptions C91_quantile_partial.

(** A bin whose rows all have weight zero has an entry but no centre, so that values
    and centres differ in number. *)
Theorem C91_zero_weight_refuted : forall sort, exists h, in_sample_histograms sort [1; 2] [0; 1] [0; 1] None = Some h /\
  h_means h = [(1%Z, None); (100%Z, Some 2)] /\ h_centres h = [middle 0 1 100 100].
Proof. exact zero_weight_run. Qed.
Print Assumptions C91_zero_weight_refuted.

Example C91_sort : sorts insertion_sort.
Proof. exact insertion_sorts. Qed.
Example C91_run : forall sort, exists h, in_sample_histograms sort [3; 2] [0; 1] [1; 4] None = Some h /\
  h_means h = [(1%Z, Some 3); (100%Z, Some 2)] /\ h_centres h = [middle 0 1 100 1; middle 0 1 100 100] /\
  h_counts h = [(1%Z, 1); (100%Z, 4)].
Proof. exact proper_run. Qed.

(** ** C92 *)
(** Distributions on the natural numbers; see the refutation for others. *)
Theorem C92_uniform_partial : forall F t m, discrete_cdf F -> Un_cv (fun n => F (Z.of_nat n)) 1 -> 0 <= t <= 1 ->
  (forall y, holds_below (m y) (fun u => smear F (Z.of_nat y) u <= t)) ->
  infinite_sum (fun y => probability F y * m y) t.
Proof. exact smear_uniform_limit. Qed.
Print Assumptions C92_uniform_partial.
Theorem C92_finite_partial : forall F t m, discrete_cdf F -> 0 <= t ->
  (forall y, holds_below (m y) (fun u => smear F (Z.of_nat y) u <= t)) ->
  forall n, sum_f_R0 (fun y => probability F y * m y) n = Rmin t (F (Z.of_nat n)).
Proof. exact smear_uniform. Qed.
Print Assumptions C92_finite_partial.
Theorem C92_determined_partial : forall F y t, discrete_cdf F -> exists m, holds_below m (fun u => smear F (Z.of_nat y) u <= t).
Proof. exact smear_exists. Qed.
Print Assumptions C92_determined_partial.
Theorem C92_between_partial : forall F y u, discrete_cdf F -> 0 <= u <= 1 ->
  F (Z.of_nat y - 1)%Z <= smear F (Z.of_nat y) u <= F (Z.of_nat y).
Proof. exact smear_between. Qed.
Print Assumptions C92_between_partial.

(** The numbers -2 and -1 with probability 1/2 each: the smeared value is at most 1/2
    with probability 1/2 * 1 + 1/2 * 1/2. *)
Theorem C92_negative_refuted : holds_below 1 (fun u => smear two_below (-2) u <= 1 / 2) /\
  holds_below (1 / 2) (fun u => smear two_below (-1) u <= 1 / 2).
Proof. exact negative_smear. Qed.
Print Assumptions C92_negative_refuted.

Example C92_coin : discrete_cdf coin /\ Un_cv (fun n => coin (Z.of_nat n)) 1.
Proof. exact coin_cdf. Qed.

(** ** C93 *)
Theorem C93_round_trip : forall elems object, object_attrs object ->
  fst (getstate elems object) = object /\ setstate elems [] (snd (getstate elems object)) = object.
Proof. exact round_trip. Qed.
Print Assumptions C93_round_trip.
Theorem C93_sparse : forall elems object k l, object_attrs object -> In k elems -> get_attr object k = Some (Array l) ->
  get_attr (snd (getstate elems object)) k = Some (Sparse (csr_matrix l)) /\
  Forall (fun e => nonzero (snd e) = true) (c_entries (csr_matrix l)).
Proof. exact saved_sparse. Qed.
Print Assumptions C93_sparse.
Example C93_object : object_attrs ex_object /\ In "smoothed_y_"%string elems_onedim /\
  In "smoothed_y_"%string elems_multidim /\ In "bin_weights_"%string elems_multidim.
Proof. exact (conj ex_object_ok (conj (or_introl eq_refl) (conj (or_introl eq_refl) (or_intror (or_introl eq_refl))))). Qed.

(** ** C94 *)
Theorem C94_last_partial : forall cfg features calc smooth calib rate loss fuel p st,
  fit_main cfg features calc smooth calib rate loss fuel p = Some (Ok st) -> features <> [] ->
  let r := observed cfg features calc smooth calib rate loss (-1) fuel p in
  let n := t_iter st in
  (1 <= n)%nat /\ after (iteration cfg features calc smooth calib rate loss (loss p)) n (init_state features loss p) st /\
  r_state r = Some st /\ List.length (r_loss r) = S n /\ List.length (r_change r) = n /\
  forall k s, (k <= n)%nat -> after (iteration cfg features calc smooth calib rate loss (loss p)) k (init_state features loss p) s ->
    nth_error (r_loss r) k = Some (t_loss s) /\ ((1 <= k)%nat -> nth_error (r_change r) (k - 1) = Some (t_delta s)).
Proof. exact observed_last. Qed.
Print Assumptions C94_last_partial.

Theorem C94_chosen_partial : forall cfg features calc smooth calib rate loss fuel p st m,
  fit_main cfg features calc smooth calib rate loss fuel p = Some (Ok st) -> (1 <= m < t_iter st)%nat ->
  let r := observed cfg features calc smooth calib rate loss (Z.of_nat m) fuel p in
  (exists s, after (iteration cfg features calc smooth calib rate loss (loss p)) m (init_state features loss p) s /\ r_state r = Some s) /\
  List.length (r_loss r) = S m /\ List.length (r_change r) = m /\
  forall k s, (k <= m)%nat -> after (iteration cfg features calc smooth calib rate loss (loss p)) k (init_state features loss p) s ->
    nth_error (r_loss r) k = Some (t_loss s) /\ ((1 <= k)%nat -> nth_error (r_change r) (k - 1) = Some (t_delta s)).
Proof. exact observed_chosen. Qed.
Print Assumptions C94_chosen_partial.

(** The observer for iteration [m] stays empty although the iteration was calculated,
    if the training ends with it ([t_iter st = m]). *)
Theorem C94_final_iteration_refuted : forall cfg features calc smooth calib rate loss fuel p st m,
  fit_main cfg features calc smooth calib rate loss fuel p = Some (Ok st) -> (t_iter st <= m)%nat ->
  r_state (observed cfg features calc smooth calib rate loss (Z.of_nat m) fuel p) = None.
Proof. exact observed_not. Qed.
Print Assumptions C94_final_iteration_refuted.

Example C94_run : exists st, fit_main gcfg gfeats (ex_calc (1/4) (1/8)) ex_smooth ex_id ex_rate flat_loss 6 ex_prior = Some (Ok st) /\
  gfeats <> [] /\ t_iter st = 2%nat.
Proof. exact g_observed. Qed.
