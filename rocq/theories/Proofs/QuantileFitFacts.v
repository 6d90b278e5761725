(** Proofs about the fits of distributions to quantiles. *)
From Coq Require Import ZArith List Bool Reals Lia Lra Permutation Sorted.
From Verif.Model Require Import Train Regularize Diagnostics Qpd QuantileFit.
From Verif.Spec Require Import RegularizeSpec QpdSpec QuantileFitSpec.
From Verif.Proofs Require Import TrainFacts TrainExamples LinkFacts ImportanceFacts TotalFacts RegressionFacts QpdFacts DiagnosticsFacts BinOrderFacts.
Import ListNotations.
Local Open Scope R_scope.

(** ** Sums of options *)
Lemma sum_opt_all l : sum_opt (map Some l) = Some (sumR l).
Proof. induction l as [|x l IH]; [reflexivity|]. cbn [map sum_opt]. rewrite IH. reflexivity. Qed.
Lemma sum_opt_some l s : sum_opt l = Some s -> exists r, l = map Some r /\ s = sumR r.
Proof.
  revert s. induction l as [|x l IH]; intros s H.
  - injection H as <-. exists []. split; reflexivity.
  - cbn [sum_opt] in H. destruct x as [a|]; [|discriminate]. destruct (sum_opt l) as [b|]; [|discriminate].
    injection H as <-. destruct (IH b eq_refl) as (r & -> & ->). exists (a :: r). split; reflexivity.
Qed.

(** ** The shape fit *)
Lemma mean_distance_finite ppf p q : (forall x, ppf x <> None) -> mean_distance ppf p q <> None.
Proof.
  intros F. unfold mean_distance.
  assert (E : exists r, map2 (fun x v => match ppf x with Some f => Some (Rabs (v - f)) | None => None end) p q = map Some r).
  { revert q. induction p as [|x p IH]; intros q; [exists []; reflexivity|]. destruct q as [|v q]; [exists []; reflexivity|].
    destruct (IH q) as (r & E). cbn [map2]. specialize (F x). destruct (ppf x) as [f|]; [|congruence].
    exists (Rabs (v - f) :: r). cbn [map]. rewrite E. reflexivity. }
  destruct E as (r & ->). rewrite sum_opt_all. discriminate.
Qed.
Lemma mean_distance_none ppf p q : p <> [] -> length q = length p -> (forall x, ppf x = None) -> mean_distance ppf p q = None.
Proof.
  intros NE L F. destruct p as [|x p]; [congruence|]. destruct q as [|v q]; [discriminate|].
  unfold mean_distance. cbn [map2 sum_opt]. rewrite F. reflexivity.
Qed.
Lemma assigned into back alpha t s s' : assign_shape (construct into back alpha t s) s' = construct into back alpha t s'.
Proof. reflexivity. Qed.

Lemma grid_steps : probability_grid = per_mille.
Proof. unfold probability_grid, per_mille. apply map_ext. intros k. lra. Qed.
Lemma shape_best sort mquantiles minimize alpha l u b y s into back :
  transformations b l u = Some (into, back) ->
  fit_sinhlogistic_shape sort mquantiles minimize alpha l u b y = Shape s ->
  exists t, sample_triplet sort alpha y = Some t /\
  let distance := fun shape => mean_distance (object_ppf (construct into back alpha t shape)) per_mille (mquantiles y per_mille) in
  forall j, fit_extended into t = Extended j -> not_worse minimize distance ->
    exists v v0 v1, distance s = Some v /\ distance 0 = Some v0 /\ distance 1 = Some v1 /\ v <= v0 /\ v <= v1.
Proof.
  intros T F. unfold fit_sinhlogistic_shape in F. rewrite T, grid_steps in F.
  destruct (sample_triplet sort alpha y) as [t|]; [|discriminate]. exists t. split; [reflexivity|].
  intros distance j J NW.
  cbn [construct q_params] in F. rewrite J in F.
  change (match minimize distance with Some s => Shape s | None => Failed end = Shape s) in F.
  destruct (minimize distance) as [s'|] eqn:M; [|discriminate]. injection F as ->.
  apply NW; [exact M|]. intros x. apply mean_distance_finite. intros p.
  unfold object_ppf. cbn [construct q_phi q_alpha q_params q_back]. rewrite J. discriminate.
Qed.

Lemma triplet_monotonic sort alpha y t : sorts_values sort -> 0 <= alpha <= 1 / 2 -> sample_triplet sort alpha y = Some t ->
  qv_low t <= qv_median t <= qv_high t.
Proof.
  intros So A H. unfold sample_triplet in H. destruct (So y) as [P Ss].
  destruct (sort y) as [|x0 r] eqn:E; [discriminate|]. rewrite <- E in *. assert (NE : sort y <> []) by congruence.
  destruct (interpolated_mono (sort y) alpha (1 / 2) Ss NE) as (v1 & v2 & E1 & E2 & L1); try lra.
  destruct (interpolated_mono (sort y) (1 / 2) (1 - alpha) Ss NE) as (v2' & v3 & E2' & E3 & L2); try lra.
  rewrite E1, E2, E3 in H. rewrite E2 in E2'. injection E2' as <-. injection H as <-. cbn. lra.
Qed.
Lemma triplet_exists sort alpha y : sorts_values sort -> y <> [] -> exists t, sample_triplet sort alpha y = Some t.
Proof.
  intros So NE. unfold sample_triplet. destruct (So y) as [P _].
  destruct (sort y) as [|x0 r]; [apply Permutation_nil in P; congruence|]. eexists. reflexivity.
Qed.
Lemma shape_refused sort mquantiles minimize alpha l u b y : sorts_values sort -> 0 <= alpha <= 1 / 2 -> y <> [] ->
  (fit_sinhlogistic_shape sort mquantiles minimize alpha l u b y = Refused <-> b = OtherBound).
Proof.
  intros So A NE. split; intros H; [|subst b; reflexivity].
  unfold fit_sinhlogistic_shape in H. destruct (transformations b l u) as [[into back]|] eqn:T.
  - exfalso. destruct (triplet_exists sort alpha y So NE) as (t & E). rewrite E in H.
    pose proof (triplet_monotonic sort alpha y t So A E) as M.
    cbn [construct q_params] in H. unfold fit_extended in H.
    assert (Mt : monotonic t = true).
    { unfold monotonic. rewrite (proj2 (Rltb_false _ _)), (proj2 (Rltb_false _ _)) by lra. reflexivity. }
    rewrite Mt in H. destruct (into (qv_low t)); [destruct (into (qv_high t)); [destruct (into (qv_median t)); [destruct (unconstrained_calc _ _ _)|]|]|];
      destruct (minimize _); discriminate.
  - destruct b; try discriminate. reflexivity.
Qed.

Lemma base_fixed shape alpha : 0 < alpha < 1 / 2 -> forall d, d = base_dist (sinh_logistic shape) alpha ->
  d_ppf d alpha = -1 /\ d_ppf d (1 / 2) = 0 /\ d_ppf d (1 - alpha) = 1.
Proof.
  intros A d ->. unfold base_dist. cbn [d_ppf].
  pose proof (sinh_logistic_base shape) as BD.
  pose proof (width_pos _ BD alpha A) as W. rewrite (ppf_alpha _ BD alpha A), (ppf_half _ BD).
  change (sinh_ppf shape (1 - alpha)) with (d_ppf (sinh_logistic shape) (1 - alpha)) in *.
  repeat split; field; lra.
Qed.
Lemma shape_keeps_triplet into back alpha t s s' p : 0 < alpha < 1 / 2 -> In p [alpha; 1 / 2; 1 - alpha] ->
  object_ppf (construct into back alpha t s) p = object_ppf (construct into back alpha t s') p.
Proof.
  intros A P. unfold object_ppf. cbn [construct q_phi q_alpha q_params q_back]. unfold ppf_extended.
  destruct (fit_extended into t) as [| |j]; try reflexivity. unfold johnson_ppf.
  destruct (base_fixed s alpha A _ eq_refl) as (E1 & E2 & E3). destruct (base_fixed s' alpha A _ eq_refl) as (F1 & F2 & F3).
  destruct P as [<-|[<-|[<-|[]]]]; rewrite ?E1, ?E2, ?E3, ?F1, ?F2, ?F3; reflexivity.
Qed.

(** ** Ties among the quantiles *)
Definition tied : list R := [0; 0; 0; 0; 4].
Lemma tied_sorted : StronglySorted Rle tied.
Proof. unfold tied. repeat constructor; lra. Qed.
Lemma int_part_is r z : IZR z <= r < IZR z + 1 -> Int_part r = z.
Proof.
  intros H. destruct (base_Int_part r) as [A B].
  assert (IZR (Int_part r) < IZR (z + 1)) by (rewrite plus_IZR; lra).
  assert (IZR z < IZR (Int_part r + 1)) by (rewrite plus_IZR; lra).
  pose proof (lt_IZR _ _ H0). pose proof (lt_IZR _ _ H1). lia.
Qed.
Lemma tied_triplet sort : sorts_values sort ->
  sample_triplet sort (1 / 10) tied = Some {| qv_low := 0; qv_median := 0; qv_high := 12 / 5 |}.
Proof.
  intros So. destruct (So tied) as [P Ss]. pose proof (sorted_unique _ _ P Ss tied_sorted) as E.
  unfold sample_triplet. rewrite E. unfold interpolated_quantile, tied, frac_part. cbn [length Nat.sub].
  replace (INR 4) with 4 by (cbn; lra).
  rewrite (int_part_is (1 / 10 * 4) 0) by (simpl IZR; lra).
  rewrite (int_part_is (1 / 2 * 4) 2) by (simpl IZR; lra).
  rewrite (int_part_is ((1 - 1 / 10) * 4) 3) by (simpl IZR; lra).
  change (Z.to_nat 0) with 0%nat. change (Z.to_nat 2) with 2%nat. change (Z.to_nat 3) with 3%nat.
  cbn [nth]. f_equal. f_equal; lra.
Qed.
Lemma tied_not_a_number : fit_extended into_u {| qv_low := 0; qv_median := 0; qv_high := 12 / 5 |} = NotANumber.
Proof.
  unfold fit_extended, monotonic. cbn [qv_low qv_median qv_high into_u].
  rewrite (proj2 (Rltb_false 0 0)) by lra. rewrite (proj2 (Rltb_false (12 / 5) 0)) by lra. cbn [negb andb].
  unfold unconstrained_calc, skewness. rewrite (proj2 (Reqb_false_iff (0 + 12 / 5 - 2 * 0) 0)) by lra.
  cbv zeta. rewrite (proj2 (Rltb_iff 0 (0 + 12 / 5 - 2 * 0))) by lra. rewrite (proj2 (Rltb_iff (-1) 0)) by lra.
  replace ((0 - 0) / (12 / 5 - 0)) with 0 by field. rewrite (proj2 (Reqb_iff 0 0)) by reflexivity. reflexivity.
Qed.
Lemma shape_ties : exists alpha y, 0 < alpha < 1 / 2 /\ y <> [] /\ forall sort (mquantiles : list R -> list R -> list R),
  sorts_values sort -> (forall y p, length (mquantiles y p) = length p) ->
  exists t, sample_triplet sort alpha y = Some t /\ qv_low t <= qv_median t < qv_high t /\
    forall shape, mean_distance (object_ppf (construct into_u back_u alpha t shape)) per_mille (mquantiles y per_mille) = None.
Proof.
  exists (1 / 10), tied. split; [lra|]. split; [discriminate|]. intros sort mq So L. eexists. split; [apply tied_triplet, So|].
  split; [cbn; lra|]. intros shape. apply mean_distance_none; [discriminate|apply L|].
  intros x. unfold object_ppf. cbn [construct q_phi q_alpha q_params q_back]. rewrite tied_not_a_number. reflexivity.
Qed.

(** ** Closest curves *)
Lemma deviation_some f xs ys a b e : length xs = length ys -> deviation f xs ys a b = Some e ->
  exists vs, map (fun x => f x a b) xs = map Some vs /\ e = sumR (map2 (fun y v => (y - v) ^ 2) ys vs).
Proof.
  unfold deviation. revert ys e. induction xs as [|x xs IH]; intros ys e L H; destruct ys as [|y ys]; try discriminate L.
  - injection H as <-. exists []. split; reflexivity.
  - cbn [map2 sum_opt] in H. destruct (f x a b) as [v|] eqn:F; [|discriminate].
    destruct (sum_opt _) as [r|] eqn:Q in H; [|discriminate]. injection H as <-. injection L as L.
    destruct (IH ys r L Q) as (vs & E & ->). exists (v :: vs). cbn [map map2 sumR fold_right]. rewrite F, E. split; reflexivity.
Qed.
Lemma deviation_on f xs ys a b : on_curve f a b xs ys -> deviation f xs ys a b = Some 0.
Proof.
  unfold on_curve, deviation. revert ys. induction xs as [|x xs IH]; intros ys H; destruct ys as [|y ys]; try discriminate H; [reflexivity|].
  cbn [map] in H. injection H as F E. cbn [map2 sum_opt]. rewrite F, (IH ys E). f_equal. ring.
Qed.
Lemma squares_nonneg ys vs : 0 <= sumR (map2 (fun y v => (y - v) ^ 2) ys vs).
Proof.
  revert vs. induction ys as [|y ys IH]; intros vs; [cbn; lra|]. destruct vs as [|v vs]; [cbn; lra|].
  cbn [map2 sumR fold_right]. pose proof (IH vs) as H. pose proof (pow2_ge_0 (y - v)). unfold sumR in *. lra.
Qed.
Lemma squares_zero ys : forall vs, length ys = length vs -> sumR (map2 (fun y v => (y - v) ^ 2) ys vs) <= 0 -> vs = ys.
Proof.
  induction ys as [|y ys IH]; intros vs L H; destruct vs as [|v vs]; try discriminate L; [reflexivity|].
  cbn [map2 sumR fold_right] in H. pose proof (squares_nonneg ys vs) as N. pose proof (pow2_ge_0 (y - v)) as N'. unfold sumR in *.
  assert (Z : (y - v) ^ 2 = 0) by lra. rewrite (IH vs) by (try (injection L; auto); lra). f_equal.
  destruct (Req_dec (y - v) 0) as [D|D]; [lra|]. pose proof (square_pos _ D). lra.
Qed.
Lemma on_length f a b xs ys : on_curve f a b xs ys -> length xs = length ys.
Proof. intros H. apply (f_equal (@length _)) in H. rewrite !map_length in H. exact H. Qed.
Lemma on_closest f a b xs ys : on_curve f a b xs ys -> closest f xs ys a b.
Proof.
  intros H. exists 0. split; [apply deviation_on, H|]. intros a' b' e' D.
  destruct (deviation_some _ _ _ _ _ _ (on_length _ _ _ _ _ H) D) as (vs & _ & ->). apply squares_nonneg.
Qed.
Lemma reproduced cf f a b xs ys : on_curve f a b xs ys -> finds_closest cf f xs ys ->
  on_curve f (fst (cf f xs ys)) (snd (cf f xs ys)) xs ys.
Proof.
  intros H C. destruct (C (ex_intro _ a (ex_intro _ b (on_closest _ _ _ _ _ H)))) as (e & D & M).
  pose proof (M a b 0 (deviation_on _ _ _ _ _ H)) as Z.
  destruct (deviation_some _ _ _ _ _ _ (on_length _ _ _ _ _ H) D) as (vs & E & ->).
  pose proof (f_equal (@length _) E) as Lv. rewrite !map_length in Lv. pose proof (on_length _ _ _ _ _ H) as Ly.
  apply squares_zero in Z; [|congruence]. subst vs. exact E.
Qed.

Lemma gamma_reproduced cf std qs vs alpha beta : on_curve (gamma_curve std) alpha beta qs vs ->
  finds_closest cf (gamma_curve std) qs vs ->
  exists f, quantile_fit_gamma cf std qs vs Ppf = Quantiles f /\ map f qs = map Some vs.
Proof.
  intros H C. pose proof (reproduced cf _ _ _ _ _ H C) as E. unfold quantile_fit_gamma.
  change (fun x alpha beta => z_ppf (gamma_dist std alpha beta) x) with (gamma_curve std).
  destruct (cf (gamma_curve std) qs vs) as [a b]. eexists. split; [reflexivity|]. exact E.
Qed.
Lemma nbinom_reproduced cf std qs vs mu var : on_curve (nbinom_curve std) mu var vs qs ->
  finds_closest cf (nbinom_curve std) vs qs ->
  exists f, quantile_fit_nbinom cf std qs vs Cdf = Probabilities f /\ map f vs = map Some qs.
Proof.
  intros H C. pose proof (reproduced cf _ _ _ _ _ H C) as E. unfold quantile_fit_nbinom.
  change (fun x mu var => z_cdf (nbinom_dist std mu var) x) with (nbinom_curve std).
  destruct (cf (nbinom_curve std) vs qs) as [a b]. eexists. split; [reflexivity|]. exact E.
Qed.
Lemma nbinom_moments mu var : 0 < mu < var ->
  0 < nbinom_n mu var /\ 0 < nbinom_p mu var < 1 /\
  nbinom_n mu var * (1 - nbinom_p mu var) / nbinom_p mu var = mu /\
  nbinom_n mu var * (1 - nbinom_p mu var) / nbinom_p mu var ^ 2 = var.
Proof.
  intros H. unfold nbinom_n, nbinom_p. split; [apply Rdiv_lt_0_compat; nra|]. split; [split|split; field; lra].
  - apply Rdiv_lt_0_compat; lra.
  - apply (Rmult_lt_reg_r var); [lra|]. unfold Rdiv. rewrite Rmult_assoc, Rinv_l by lra. lra.
Qed.
Lemma nbinom_invalid std mu var : 0 < var <= mu -> nbinom_dist std mu var = invalid.
Proof.
  intros H. unfold nbinom_dist. destruct (Reqb var mu) eqn:E; [reflexivity|]. apply Reqb_false_iff in E.
  rewrite (proj2 (Reqb_false_iff var 0)) by lra. cbn [orb]. cbv zeta.
  assert (N : nbinom_n mu var < 0).
  { unfold nbinom_n, Rdiv. pose proof (Rinv_lt_0_compat (var - mu) ltac:(lra)). assert (0 < mu * mu) by nra. nra. }
  rewrite (proj2 (Rltb_false 0 (nbinom_n mu var))) by lra. reflexivity.
Qed.

(** ** The Gaussian fit *)
Section Gaussian.
Variable norm : dist.
Hypothesis BD : base_distribution norm.
Variables qs vs : list R.
Hypothesis Pq : probabilities qs.
Hypothesis Lv : length vs = length qs.
Let scores := map (d_ppf norm) qs.
Let ones := map (fun _ : R => 1) qs.

Lemma ones_at i : (i < length qs)%nat -> nth i ones 0 = 1.
Proof. intros I. unfold ones. rewrite (nth_map_lt _ _ _ 0) by exact I. reflexivity. Qed.
Lemma deviation_gaussian mu sigma : 0 < sigma ->
  deviation (gaussian_curve norm) qs vs mu sigma = Some (squared_error scores vs ones mu sigma).
Proof.
  intros Sg.
  assert (E : deviation (gaussian_curve norm) qs vs mu sigma = Some (sumR (map2 (fun q v => (v - (mu + sigma * d_ppf norm q)) ^ 2) qs vs))).
  { unfold deviation. clear scores ones. revert vs Lv. induction qs as [|q r IH]; intros v L; [reflexivity|].
    destruct v as [|v0 v]; [discriminate L|]. cbn [map2 sum_opt].
    rewrite IH by (try (intros x X; apply Pq; right; exact X); injection L; auto).
    unfold gaussian_curve, gaussian, located. rewrite (proj2 (Rltb_iff 0 sigma)) by exact Sg. cbn [z_ppf].
    destruct (Pq q (or_introl eq_refl)) as [A B]. rewrite (proj2 (Rltb_iff 0 q)), (proj2 (Rltb_iff q 1)) by assumption.
    cbn [andb]. reflexivity. }
  rewrite E. f_equal. rewrite (map2_total _ _ _ 0 0) by (symmetry; exact Lv). unfold squared_error, scores. rewrite map_length.
  apply total_ext. intros i I. rewrite ones_at by exact I. rewrite (nth_map_lt _ _ _ 0) by exact I. ring.
Qed.
Lemma deviation_negative mu sigma e : qs <> [] -> deviation (gaussian_curve norm) qs vs mu sigma = Some e -> 0 < sigma.
Proof.
  intros NE H. destruct (Rlt_le_dec 0 sigma) as [S|S]; [exact S|exfalso].
  destruct qs as [|q r]; [congruence|]. destruct vs as [|v0 v]; [discriminate Lv|].
  unfold deviation in H. cbn [map2 sum_opt] in H. unfold gaussian_curve, gaussian, located in H.
  rewrite (proj2 (Rltb_false 0 sigma)) in H by lra. discriminate.
Qed.

Hypothesis Td : two_different qs.
Lemma scores_spread : spread_out scores ones.
Proof.
  destruct Td as (p & q & P & Q & D). apply (In_nth _ _ 0) in P. apply (In_nth _ _ 0) in Q.
  destruct P as (i & I & Ei). destruct Q as (j & J & Ej). exists i, j. unfold scores. rewrite map_length.
  split; [exact I|]. split; [exact J|]. rewrite !ones_at by assumption. split; [lra|]. split; [lra|].
  rewrite (nth_map_lt _ _ _ 0) by exact I. rewrite (nth_map_lt _ _ _ 0) by exact J. rewrite Ei, Ej.
  assert (Hp : 0 < p < 1) by (apply Pq; rewrite <- Ei; apply nth_In, I).
  assert (Hq : 0 < q < 1) by (apply Pq; rewrite <- Ej; apply nth_In, J).
  intros E. apply D. rewrite <- (cdf_of_ppf _ BD p Hp), <- (cdf_of_ppf _ BD q Hq), E. reflexivity.
Qed.
Lemma score_order i j : (i < length qs)%nat -> (j < length qs)%nat -> nth i scores 0 < nth j scores 0 -> nth i qs 0 < nth j qs 0.
Proof.
  intros I J H. unfold scores in H. rewrite (nth_map_lt _ _ _ 0) in H by exact I. rewrite (nth_map_lt _ _ _ 0) in H by exact J.
  destruct (Rlt_le_dec (nth i qs 0) (nth j qs 0)) as [L|L]; [exact L|exfalso].
  destruct (Rle_lt_or_eq_dec _ _ L) as [L'|L'].
  - pose proof (ppf_increasing _ BD (nth j qs 0) (nth i qs 0) (proj1 (Pq _ (nth_In _ _ J))) L' (proj2 (Pq _ (nth_In _ _ I)))). lra.
  - rewrite L' in H. lra.
Qed.

(** The covariance of values that increase with the scores. *)
Lemma covariance (X Y : nat -> R) n : total n (fun i => total n (fun j => (X i - X j) * (Y i - Y j))) =
  2 * (INR n * total n (fun i => X i * Y i) - total n X * total n Y).
Proof.
  rewrite (total_ext n _ (fun i => INR n * (X i * Y i) + ((- total n Y) * X i + ((- total n X) * Y i + total n (fun j => X j * Y j) * 1)))).
  2:{ intros i I. rewrite (total_ext n _ (fun j => X i * Y i * 1 + ((- X i) * Y j + ((- Y i) * X j + X j * Y j)))) by (intros; ring).
      rewrite !total_plus, !total_scal. replace (total n (fun _ => 1)) with (INR n); [ring|].
      clear. induction n as [|n IH]; [reflexivity|]. rewrite S_INR, total_S, IH. ring. }
  rewrite !total_plus, !total_scal. replace (total n (fun _ => 1)) with (INR n); [ring|].
  clear. induction n as [|n IH]; [reflexivity|]. rewrite S_INR, total_S, IH. ring.
Qed.
Hypothesis Inc : increasing_with qs vs.
Lemma slope_positive a b : linear_regression scores vs ones = Some (a, b) -> 0 < b.
Proof.
  assert (Ls : length vs = length scores) by (unfold scores; rewrite map_length; exact Lv).
  assert (Lo : length ones = length scores) by (unfold scores, ones; rewrite !map_length; reflexivity).
  assert (Wp : forall i, (i < length scores)%nat -> 0 <= nth i ones 0).
  { intros i I. rewrite ones_at; [lra|]. unfold scores in I. rewrite map_length in I. exact I. }
  rewrite regression_sums by assumption. pose proof (det_pos scores ones Wp scores_spread) as D. cbv zeta in D.
  destruct (Reqb _ 0); [discriminate|]. intros E. injection E as _ <-.
  apply Rdiv_lt_0_compat; [|exact D]. clear D.
  set (n := length scores). assert (Ln : n = length qs) by (unfold n, scores; apply map_length).
  set (X i := nth i scores 0). set (Y i := nth i vs 0).
  assert (One : forall g, total n (fun i => nth i ones 0 * g i) = total n g).
  { intros g. apply total_ext. intros i I. rewrite ones_at by lia. ring. }
  assert (Cn : total n (fun i => nth i ones 0) = INR n).
  { rewrite (total_ext n _ (fun _ => 1)) by (intros i I; apply ones_at; lia). clear. induction n as [|n IH]; [reflexivity|]. rewrite S_INR, total_S, IH. ring. }
  change (0 < total n (fun i => nth i ones 0) * total n (fun i => nth i ones 0 * X i * Y i) -
              total n (fun i => nth i ones 0 * X i) * total n (fun i => nth i ones 0 * Y i)).
  rewrite Cn, (One X), (One Y).
  replace (total n (fun i => nth i ones 0 * X i * Y i)) with (total n (fun i => X i * Y i)).
  2:{ apply total_ext. intros i I. rewrite ones_at by lia. ring. }
  pose proof (covariance X Y n) as C.
  assert (T : forall i j, (i < n)%nat -> (j < n)%nat -> 0 <= (X i - X j) * (Y i - Y j) /\ (X i <> X j -> 0 < (X i - X j) * (Y i - Y j))).
  { intros i j I J. rewrite Ln in I, J. destruct (Rtotal_order (X i) (X j)) as [L|[L|L]].
    - pose proof (Inc i j I J (score_order i j I J L)) as G. fold (Y i) (Y j) in G. split; [|intros _]; nra.
    - rewrite L. split; [lra|intros N; congruence].
    - pose proof (Inc j i J I (score_order j i J I L)) as G. fold (Y i) (Y j) in G. split; [|intros _]; nra. }
  destruct scores_spread as (i & j & I & J & _ & _ & NE). fold n in I, J. fold (X i) (X j) in NE.
  assert (P : 0 < total n (fun i => total n (fun j => (X i - X j) * (Y i - Y j)))).
  { apply (total_pos n _ i); [|exact I|].
    - intros k K. apply total_nonneg. intros h Hh. apply T; assumption.
    - apply (total_pos n _ j); [|exact J|].
      + intros h Hh. apply T; assumption.
      + apply (T i j I J), NE. }
  lra.
Qed.

Lemma gaussian_line cf : finds_closest cf (gaussian_curve norm) qs vs ->
  exists mu sigma, cf (gaussian_curve norm) qs vs = (mu, sigma) /\ 0 < sigma /\
    forall mu' sigma', squared_error scores vs ones mu sigma <= squared_error scores vs ones mu' sigma' /\
      (squared_error scores vs ones mu' sigma' = squared_error scores vs ones mu sigma -> mu' = mu /\ sigma' = sigma).
Proof.
  intros C. assert (Ls : length vs = length scores) by (unfold scores; rewrite map_length; exact Lv).
  assert (Lo : length ones = length scores) by (unfold scores, ones; rewrite !map_length; reflexivity).
  assert (Wp : forall i, (i < length scores)%nat -> 0 <= nth i ones 0).
  { intros i I. rewrite ones_at; [lra|]. unfold scores in I. rewrite map_length in I. exact I. }
  destruct (regression_minimiser scores vs ones Ls Lo Wp scores_spread) as (a & b & E & M).
  pose proof (slope_positive a b E) as B.
  assert (NE : qs <> []) by (destruct Td as (p & q & P & _); destruct qs; [destruct P|discriminate]).
  assert (Cl : closest (gaussian_curve norm) qs vs a b).
  { exists (squared_error scores vs ones a b). split; [apply deviation_gaussian, B|]. intros a' b' e' D.
    pose proof (deviation_negative a' b' e' NE D) as B'. rewrite (deviation_gaussian a' b' B') in D. injection D as <-. apply M. }
  destruct (C (ex_intro _ a (ex_intro _ b Cl))) as (e & D & Mn).
  destruct (cf (gaussian_curve norm) qs vs) as [mu sigma]. cbn [fst snd] in *.
  pose proof (deviation_negative mu sigma e NE D) as Sg. rewrite (deviation_gaussian mu sigma Sg) in D. injection D as <-.
  pose proof (Mn a b _ (deviation_gaussian a b B)) as Le. destruct (M mu sigma) as [Ge Un].
  destruct (Un ltac:(lra)) as [-> ->]. exists a, b. split; [reflexivity|]. split; [exact B|]. exact M.
Qed.
End Gaussian.

Lemma gaussian_modes cf norm qs vs mu sigma : cf (gaussian_curve norm) qs vs = (mu, sigma) ->
  quantile_fit_gaussian cf norm qs vs Ppf = Quantiles (z_ppf (gaussian norm mu sigma)) /\
  quantile_fit_gaussian cf norm qs vs Dist = Distribution (gaussian norm mu sigma) /\
  quantile_fit_gaussian cf norm qs vs Cdf = Probabilities (z_cdf (gaussian norm mu sigma)) /\
  quantile_fit_gaussian cf norm qs vs OtherMode = InvalidMode.
Proof.
  intros E. unfold quantile_fit_gaussian. change (fun x mu sigma => z_ppf (gaussian norm mu sigma) x) with (gaussian_curve norm).
  rewrite E. repeat split; reflexivity.
Qed.
Lemma gaussian_values norm mu sigma : 0 < sigma ->
  (forall p, 0 < p < 1 -> z_ppf (gaussian norm mu sigma) p = Some (mu + sigma * d_ppf norm p)) /\
  (forall x, z_cdf (gaussian norm mu sigma) x = Some (d_cdf norm ((x - mu) / sigma))).
Proof.
  intros S. unfold gaussian, located. rewrite (proj2 (Rltb_iff 0 sigma)) by exact S. cbn [z_ppf z_cdf]. split; [|reflexivity].
  intros p [A B]. rewrite (proj2 (Rltb_iff 0 p)), (proj2 (Rltb_iff p 1)) by assumption. reflexivity.
Qed.

Lemma gaussian_fit cf norm qs vs : base_distribution norm -> probabilities qs -> length vs = length qs -> two_different qs ->
  increasing_with qs vs -> finds_closest cf (gaussian_curve norm) qs vs ->
  exists mu sigma f g, 0 < sigma /\
    quantile_fit_gaussian cf norm qs vs Ppf = Quantiles f /\ (forall p, 0 < p < 1 -> f p = Some (mu + sigma * d_ppf norm p)) /\
    quantile_fit_gaussian cf norm qs vs Cdf = Probabilities g /\ (forall x, g x = Some (d_cdf norm ((x - mu) / sigma))) /\
    let error := squared_error (map (d_ppf norm) qs) vs (map (fun _ => 1) qs) in
    forall mu' sigma', error mu sigma <= error mu' sigma' /\ (error mu' sigma' = error mu sigma -> mu' = mu /\ sigma' = sigma).
Proof.
  intros BD Pq Lv Td Inc C. destruct (gaussian_line norm BD qs vs Pq Lv Td Inc cf C) as (mu & sigma & E & S & M).
  destruct (gaussian_modes cf norm qs vs mu sigma E) as (E1 & _ & E2 & _). destruct (gaussian_values norm mu sigma S) as [V1 V2].
  exists mu, sigma. eexists _, _. split; [exact S|]. split; [exact E1|]. split; [exact V1|]. split; [exact E2|]. split; [exact V2|]. exact M.
Qed.
Lemma gaussian_recovered cf norm qs mu sigma : base_distribution norm -> probabilities qs -> two_different qs -> 0 < sigma ->
  let vs := map (fun q => mu + sigma * d_ppf norm q) qs in
  finds_closest cf (gaussian_curve norm) qs vs ->
  quantile_fit_gaussian cf norm qs vs Ppf = Quantiles (z_ppf (gaussian norm mu sigma)) /\
  quantile_fit_gaussian cf norm qs vs Cdf = Probabilities (z_cdf (gaussian norm mu sigma)).
Proof.
  intros BD Pq Td S vs C.
  assert (Lv : length vs = length qs) by apply map_length.
  assert (Inc : increasing_with qs vs).
  { intros i j I J L. unfold vs. rewrite (nth_map_lt _ _ _ 0) by exact I. rewrite (nth_map_lt _ _ _ 0) by exact J.
    pose proof (ppf_increasing _ BD (nth i qs 0) (nth j qs 0) (proj1 (Pq _ (nth_In _ _ I))) L (proj2 (Pq _ (nth_In _ _ J)))). nra. }
  destruct (gaussian_line norm BD qs vs Pq Lv Td Inc cf C) as (mu' & sigma' & E & S' & M).
  assert (Z : squared_error (map (d_ppf norm) qs) vs (map (fun _ => 1) qs) mu sigma = 0).
  { unfold squared_error. rewrite map_length, (total_ext _ _ (fun _ => 0)); [apply total_zero|]. intros i I.
    unfold vs. rewrite !(nth_map_lt _ _ _ 0) by exact I. ring. }
  assert (N : 0 <= squared_error (map (d_ppf norm) qs) vs (map (fun _ => 1) qs) mu' sigma').
  { unfold squared_error. apply total_nonneg. intros i I. rewrite map_length in I. rewrite (nth_map_lt _ qs _ 0) by exact I.
    pose proof (pow2_ge_0 (nth i vs 0 - (mu' + sigma' * nth i (map (d_ppf norm) qs) 0))). lra. }
  destruct (M mu sigma) as [Le Un]. destruct (Un ltac:(lra)) as [-> ->].
  destruct (gaussian_modes cf norm qs vs mu' sigma' E) as (E1 & _ & E2 & _). split; assumption.
Qed.
Lemma gaussian_constant norm qs c : base_distribution norm -> probabilities qs -> two_different qs ->
  ~ exists mu sigma, closest (gaussian_curve norm) qs (map (fun _ => c) qs) mu sigma.
Proof.
  intros BD Pq Td (mu & sigma & e & D & M). set (vs := map (fun _ => c) qs) in *.
  assert (Lv : length vs = length qs) by apply map_length.
  assert (NE : qs <> []) by (destruct Td as (p & q & P & _); destruct qs; [destruct P|discriminate]).
  pose proof (deviation_negative norm qs vs Pq Lv mu sigma e NE D) as S.
  rewrite (deviation_gaussian norm qs vs Pq Lv mu sigma S) in D. injection D as <-.
  set (scores := map (d_ppf norm) qs) in *. set (ones := map (fun _ : R => 1) qs) in *.
  assert (Ls : length vs = length scores) by (unfold scores; rewrite map_length; exact Lv).
  assert (Lo : length ones = length scores) by (unfold scores, ones; rewrite !map_length; reflexivity).
  assert (Ls' : length scores = length qs) by (unfold scores; apply map_length).
  assert (Wp : forall i, (i < length scores)%nat -> 0 <= nth i ones 0).
  { intros i I. unfold ones. rewrite (nth_map_lt _ _ _ 0) by lia. lra. }
  assert (Er : forall s, squared_error scores vs ones c s = s * s * total (length qs) (fun i => nth i scores 0 ^ 2)).
  { intros s. unfold squared_error. rewrite <- total_scal, Ls'. apply total_ext. intros i I. unfold vs, ones.
    rewrite !(nth_map_lt _ qs _ 0) by exact I. ring. }
  set (K := total (length qs) (fun i => nth i scores 0 ^ 2)) in *.
  assert (K0 : 0 <= K) by (apply total_nonneg; intros; apply pow2_ge_0).
  destruct (regression_minimiser scores vs ones Ls Lo Wp (scores_spread norm BD qs Pq Td)) as (a & b & _ & U).
  assert (E0 : 0 <= squared_error scores vs ones a b).
  { unfold squared_error. apply total_nonneg. intros i I. apply Rmult_le_pos; [apply Wp, I|apply pow2_ge_0]. }
  assert (Zc : squared_error scores vs ones c 0 = 0) by (rewrite Er; ring).
  assert (P : 0 < squared_error scores vs ones mu sigma).
  { destruct (U c 0) as [U1 U2]. destruct (U2 ltac:(lra)) as [<- <-]. destruct (U mu sigma) as [V1 V2].
    destruct (Req_dec (squared_error scores vs ones mu sigma) 0) as [Z|Z]; [|lra].
    destruct (V2 ltac:(lra)) as [_ W]. lra. }
  set (e := squared_error scores vs ones mu sigma) in *.
  set (s := Rmin 1 (e / (2 * (K + 1)))).
  assert (s1 : s <= 1) by apply Rmin_l.
  assert (s2 : s <= e / (2 * (K + 1))) by apply Rmin_r.
  assert (s0 : 0 < s) by (unfold s; apply Rmin_glb_lt; [lra|apply Rdiv_lt_0_compat; lra]).
  pose proof (M c s _ (deviation_gaussian norm qs vs Pq Lv c s s0)) as Le.
  fold scores ones in Le. rewrite Er in Le.
  assert (s * (K + 1) <= e / 2).
  { apply (Rmult_le_compat_r (K + 1)) in s2; [|lra]. replace (e / (2 * (K + 1)) * (K + 1)) with (e / 2) in s2 by (field; lra). exact s2. }
  assert (s * s <= s) by nra. assert (s * s * K <= s * K) by (apply Rmult_le_compat_r; assumption). nra.
Qed.

Lemma fit_modes cf norm gam nb qs vs : exists g1 g2 g3, forall m,
  quantile_fit_gaussian cf norm qs vs m = returned m g1 /\ quantile_fit_gamma cf gam qs vs m = returned m g2 /\
  quantile_fit_nbinom cf nb qs vs m = returned m g3.
Proof.
  unfold quantile_fit_gaussian, quantile_fit_gamma, quantile_fit_nbinom.
  destruct (cf (fun x mu sigma => z_ppf (gaussian norm mu sigma) x) qs vs) as [a b].
  destruct (cf (fun x alpha beta => z_ppf (gamma_dist gam alpha beta) x) qs vs) as [c d].
  destruct (cf (fun x mu var => z_cdf (nbinom_dist nb mu var) x) vs qs) as [e g].
  eexists _, _, _. intros m. split; [reflexivity|]. split; reflexivity.
Qed.
Lemma located_inverse d loc scale p : base_distribution d -> 0 < p < 1 -> 0 < scale ->
  exists v, z_ppf (located d loc scale) p = Some v /\ z_cdf (located d loc scale) v = Some p.
Proof.
  intros BD P S. unfold located. rewrite (proj2 (Rltb_iff 0 scale)) by exact S. cbn [z_ppf z_cdf].
  rewrite (proj2 (Rltb_iff 0 p)), (proj2 (Rltb_iff p 1)) by apply P. cbn [andb]. eexists. split; [reflexivity|].
  replace ((loc + scale * d_ppf d p - loc) / scale) with (d_ppf d p) by (field; lra). rewrite (cdf_of_ppf _ BD p P). reflexivity.
Qed.

(** ** The spline *)
Lemma spline_points spline qs vs : passes_through (spline qs vs) qs vs -> (forall q, In q qs -> 0 <= q <= 1) ->
  passes_through (quantile_fit_spline spline qs vs) qs vs /\
  (forall x, x <= 0 -> quantile_fit_spline spline qs vs x = quantile_fit_spline spline qs vs 0) /\
  (forall x, 1 <= x -> quantile_fit_spline spline qs vs x = quantile_fit_spline spline qs vs 1).
Proof.
  intros P I. unfold passes_through, quantile_fit_spline in *. split; [|split].
  - transitivity (map (spline qs vs) qs); [|exact P]. apply map_ext_in. intros q Q. destruct (I q Q). f_equal. rewrite Rmin_right, Rmax_right by lra. reflexivity.
  - intros x X. f_equal. rewrite (Rmin_right 1 x), (Rmin_right 1 0) by lra. rewrite !Rmax_left by lra. reflexivity.
  - intros x X. f_equal. rewrite (Rmin_left 1 x), (Rmin_left 1 1) by lra. reflexivity.
Qed.
Lemma spline_decreases : exists qs vs, StronglySorted Rlt qs /\ probabilities qs /\ StronglySorted Rlt vs /\
  forall spline, cubic_on_unit (spline qs vs) -> passes_through (spline qs vs) qs vs ->
  exists p p', 0 < p < p' /\ p' < 1 /\ quantile_fit_spline spline qs vs p' < quantile_fit_spline spline qs vs p.
Proof.
  exists [1 / 10; 1 / 5; 4 / 5; 9 / 10], [0; 7 / 4; 9 / 4; 4].
  split; [repeat constructor; lra|]. split; [intros q [<-|[<-|[<-|[<-|[]]]]]; lra|]. split; [repeat constructor; lra|].
  intros spline (a & b & c & d & C) P. set (f := spline _ _) in *. unfold passes_through in P. cbn [map] in P.
  injection P as P1 P2 P3 P4. rewrite C in P1 by lra. rewrite C in P2 by lra. rewrite C in P3 by lra. rewrite C in P4 by lra.
  exists (2 / 5), (3 / 5). split; [lra|]. split; [lra|]. unfold quantile_fit_spline. fold f.
  rewrite !(Rmin_right 1) by lra. rewrite !Rmax_right by lra. rewrite !C by lra. lra.
Qed.
