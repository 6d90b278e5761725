(** Bin estimates of the regressors and the classifier. *)
From Coq Require Import List Bool Reals Lia Lra.
From Verif.Model Require Import Num LexBins Train Predict Link Estimators.
From Verif.Spec Require Import TrainSpec PredictSpec LinkSpec EstimatorSpec.
From Verif.Proofs Require Import TrainFacts TrainExamples PredictFacts ImportanceFacts LinkFacts.
Import ListNotations.
Local Open Scope R_scope.

(** ** Bin sums *)
Lemma bin_sum_cons b lex v k :
  bin_sum (b :: lex) v k = (if Nat.eqb b k then v 0%nat else 0) + bin_sum lex (fun j => v (S j)) k.
Proof.
  unfold bin_sum. cbn [length seq map sumR nth]. f_equal.
  rewrite <- seq_shift, map_map. reflexivity.
Qed.
Lemma bin_total_sum lex : forall v k, per_row lex v -> bin_total lex v k = bin_sum lex (at_row v) k.
Proof.
  unfold per_row. induction lex as [|b lex IH]; intros [|x v] k H; cbn in H; try discriminate; [reflexivity|].
  cbn [bin_total]. rewrite bin_sum_cons. cbn [nth]. rewrite IH by auto. reflexivity.
Qed.
Lemma bin_sum_ext lex v v' k : (forall j, (j < length lex)%nat -> v j = v' j) -> bin_sum lex v k = bin_sum lex v' k.
Proof.
  intro H. unfold bin_sum. apply sumR_ext. intros j Hj. apply in_seq in Hj. rewrite H by lia. reflexivity.
Qed.
Lemma bin_sum_nonneg lex v k : (forall j, row_in lex k j -> 0 <= v j) -> 0 <= bin_sum lex v k.
Proof.
  intro H. unfold bin_sum. apply sumR_nonneg. intros j Hj. apply in_seq in Hj.
  destruct (Nat.eqb_spec (nth j lex 0%nat) k) as [E|]; [|lra]. apply H. unfold row_in. rewrite <- E.
  apply nth_error_nth'. lia.
Qed.
Lemma bin_sum_empty lex v k : (forall j, ~ row_in lex k j) -> bin_sum lex v k = 0.
Proof.
  intro H. unfold bin_sum. rewrite (sumR_ext _ (fun _ => 0)); [apply sumR_zero|]. intros j Hj.
  apply in_seq in Hj. destruct (Nat.eqb_spec (nth j lex 0%nat) k) as [E|]; [|reflexivity]. exfalso. apply (H j).
  unfold row_in. rewrite <- E. apply nth_error_nth'. lia.
Qed.
Lemma bin_sum_app lex lex' v k :
  bin_sum (lex ++ lex') v k = bin_sum lex v k + bin_sum lex' (fun j => v (length lex + j)%nat) k.
Proof.
  revert v. induction lex as [|b lex IH]; intro v.
  - cbn [app]. unfold bin_sum at 2. cbn. rewrite Rplus_0_l. reflexivity.
  - cbn [app]. rewrite !bin_sum_cons, IH. cbn [length]. rewrite Rplus_assoc. reflexivity.
Qed.
Lemma bin_sum_plus lex u v k : bin_sum lex (fun j => u j + v j) k = bin_sum lex u k + bin_sum lex v k.
Proof.
  unfold bin_sum. rewrite <- sumR_plus. apply sumR_ext. intros j _. destruct (Nat.eqb _ k); lra.
Qed.
Lemma bin_sum_scal lex c v k : bin_sum lex (fun j => c * v j) k = c * bin_sum lex v k.
Proof.
  unfold bin_sum. induction (seq 0 (length lex)) as [|j l IH]; cbn [map sumR]; [lra|]. rewrite IH.
  destruct (Nat.eqb _ k); lra.
Qed.
Lemma bin_sum_le lex u v k : (forall j, row_in lex k j -> u j <= v j) -> bin_sum lex u k <= bin_sum lex v k.
Proof.
  intro H. assert (0 <= bin_sum lex (fun j => v j + -1 * u j) k).
  { apply bin_sum_nonneg. intros j Hj. specialize (H j Hj). lra. }
  rewrite bin_sum_plus, bin_sum_scal in H0. lra.
Qed.

Lemma nth_bincounts lex v n k : (k < n)%nat -> nth_error (bincounts lex v n) k = Some (bin_total lex v k).
Proof.
  intro H. unfold bincounts. rewrite nth_error_map, (nth_error_nth' _ 0%nat) by (rewrite seq_length; auto).
  rewrite seq_nth by auto. reflexivity.
Qed.
Lemma bincounts_length lex v n : length (bincounts lex v n) = n.
Proof. unfold bincounts. rewrite map_length, seq_length. reflexivity. Qed.

Lemma pr_map2 lex (f : R -> R -> R) u v : per_row lex u -> per_row lex v -> per_row lex (map2 f u v).
Proof. unfold per_row. intros H1 H2. rewrite map2_length; congruence. Qed.
Lemma pr_map lex (f : R -> R) u : per_row lex u -> per_row lex (map f u).
Proof. unfold per_row. rewrite map_length. auto. Qed.
Lemma at_map2 lex (f : R -> R -> R) u v j : per_row lex u -> per_row lex v -> (j < length lex)%nat ->
  nth j (map2 f u v) 0 = f (nth j u 0) (nth j v 0).
Proof. unfold per_row. intros H1 H2 Hj. apply nth_map2; congruence. Qed.
Lemma at_map lex (f : R -> R) u j : per_row lex u -> (j < length lex)%nat -> nth j (map f u) 0 = f (nth j u 0).
Proof.
  unfold per_row. intros H Hj. rewrite (nth_indep _ 0 (f 0)) by (rewrite map_length; lia). apply map_nth.
Qed.
Lemma row_in_lt lex k j : row_in lex k j -> (j < length lex)%nat.
Proof. unfold row_in. intro H. apply nth_error_Some. congruence. Qed.
Lemma nonneg_at v j : nonneg v -> 0 <= nth j v 0.
Proof.
  intro H. destruct (Nat.lt_ge_cases j (length v)) as [L|L]; [apply H, nth_In; auto|]. rewrite nth_overflow by auto. lra.
Qed.

Lemma map2_map {A B C D E} (f : C -> D -> E) (g : A -> C) (h : B -> D) a : forall b,
  map2 f (map g a) (map h b) = map2 (fun x y => f (g x) (h y)) a b.
Proof. induction a; intros [|y b]; cbn; auto. f_equal. auto. Qed.
Lemma nth_error_map2 {A B C} (f : A -> B -> C) a : forall b k x y,
  nth_error a k = Some x -> nth_error b k = Some y -> nth_error (map2 f a b) k = Some (f x y).
Proof.
  induction a as [|u a IH]; intros [|v b] [|k] x y H1 H2; cbn in *; try discriminate; [congruence|]. apply IH; auto.
Qed.

(** ** C29 *)
Lemma poisson_is_nbinom med lex n y w s : per_row lex y -> per_row lex w -> per_row lex s ->
  nbinom_parameters med 1 0 lex n y w s = poisson_parameters med (poisson_precalc lex n y w) lex n w s.
Proof.
  intros Hy Hw Hs. unfold nbinom_parameters, poisson_parameters, poisson_precalc. cbv zeta.
  assert (Ha : forall k, bin_total lex (map2 (fun wy p => wy / (1 + 0 * p)) (map2 Rmult w y) (map (unlink_func Log) s)) k
    = bin_total lex (map2 Rmult y w) k).
  { intro k. pose proof (pr_map lex (unlink_func Log) s Hs) as Hp.
    rewrite !bin_total_sum by (repeat apply pr_map2; auto). apply bin_sum_ext. intros j Hj. cbv beta.
    rewrite (at_map2 lex) by (auto using pr_map2). rewrite !(at_map2 lex) by auto. field; try lra. }
  assert (Hb : forall k, bin_total lex (map2 (fun v p => v * p / (1 + 0 * p)) w (map (unlink_func Log) s)) k
    = bin_total lex (map2 Rmult w (map (unlink_func Log) s)) k).
  { intro k. pose proof (pr_map lex (unlink_func Log) s Hs) as Hp.
    rewrite !bin_total_sum by (repeat apply pr_map2; auto). apply bin_sum_ext. intros j Hj. cbv beta.
    rewrite !(at_map2 lex) by auto. field; try lra. }
  f_equal; unfold bincounts; apply map_ext; auto.
Qed.

(** ** C30 *)
Section Gamma.
Variable med : R -> R.
Hypothesis med_pos : forall a, 0 < a -> 0 < med a.

Definition nb_alpha a c (lex : list nat) y w s k :=
  2 + bin_sum lex (fun j => at_row w j * at_row y j / (a + c * exp (at_row s j))) k.
Definition nb_beta a c (lex : list nat) (w s : list R) k :=
  167834 / 100000 + bin_sum lex (fun j => at_row w j * exp (at_row s j) / (a + c * exp (at_row s j))) k.

Lemma nb_totals a c lex y w s k : per_row lex y -> per_row lex w -> per_row lex s ->
  bin_total lex (map2 (fun wy p => wy / (a + c * p)) (map2 Rmult w y) (map (unlink_func Log) s)) k + gamma_alpha_prior = nb_alpha a c lex y w s k /\
  bin_total lex (map2 (fun v p => v * p / (a + c * p)) w (map (unlink_func Log) s)) k + gamma_beta_prior = nb_beta a c lex w s k.
Proof.
  intros Hy Hw Hs. pose proof (pr_map lex (unlink_func Log) s Hs) as Hp.
  unfold nb_alpha, nb_beta, gamma_alpha_prior, gamma_beta_prior.
  rewrite !bin_total_sum by (repeat apply pr_map2; auto). split; rewrite Rplus_comm; f_equal; apply bin_sum_ext; intros j Hj; cbv beta.
  - rewrite (at_map2 lex) by (auto using pr_map2). rewrite (at_map2 lex), (at_map lex) by auto. reflexivity.
  - rewrite (at_map2 lex), (at_map lex) by auto. reflexivity.
Qed.

Lemma denominator_pos a c x : 0 < a -> 0 <= c -> 0 < a + c * exp x.
Proof. intros Ha Hc. pose proof (exp_pos x). assert (0 <= c * exp x) by (apply Rmult_le_pos; lra). lra. Qed.

Lemma estimate_pos alpha beta : 0 < alpha -> 0 < beta -> 0 < posterior_estimate med alpha beta.
Proof.
  intros Ha Hb. unfold posterior_estimate. destruct (_ && _); apply Rdiv_lt_0_compat; auto.
Qed.

Lemma uncertainty_value alpha : 0 < alpha ->
  0 < sqrt (ln (1 + alpha) - ln alpha) /\ (sqrt (ln (1 + alpha) - ln alpha)) ^ 2 = ln (1 + 1 / alpha).
Proof.
  intro H. assert (L : ln (1 + alpha) - ln alpha = ln (1 + 1 / alpha)).
  { replace (1 + 1 / alpha) with ((1 + alpha) * / alpha) by (field; lra).
    rewrite ln_mult, ln_Rinv by (auto using Rinv_0_lt_compat; lra). lra. }
  assert (P : 0 < ln (1 + alpha) - ln alpha) by (pose proof (ln_increasing alpha (1 + alpha)); lra).
  split; [apply sqrt_lt_R0; auto|]. rewrite <- Rsqr_pow2, Rsqr_sqrt by lra. exact L.
Qed.
Lemma uncertainty_antitone a a' : 0 < a -> a <= a' ->
  sqrt (ln (1 + a') - ln a') <= sqrt (ln (1 + a) - ln a).
Proof.
  intros H Hl. destruct (uncertainty_value a H) as [P E]. destruct (uncertainty_value a' ltac:(lra)) as [P' E'].
  apply Rsqr_incr_0_var; [|lra]. rewrite !Rsqr_pow2, E, E'.
  assert (1 / a' <= 1 / a) by (unfold Rdiv; rewrite !Rmult_1_l; apply Rinv_le_contravar; auto).
  assert (0 < 1 / a') by (apply Rdiv_lt_0_compat; lra).
  destruct H0 as [H0|H0]; [left; apply ln_increasing; lra|rewrite H0; lra].
Qed.

Lemma nbinom_bin a c lex n y w s k :
  0 < a -> 0 <= c -> per_row lex y -> per_row lex w -> per_row lex s -> nonneg y -> nonneg w -> (k < n)%nat ->
  let alpha := nb_alpha a c lex y w s k in let beta := nb_beta a c lex w s k in
  2 <= alpha /\ 167834 / 100000 <= beta /\
  nth_error (fst (nbinom_parameters med a c lex n y w s)) k = Some (factor_from_posterior med alpha beta) /\
  nth_error (snd (nbinom_parameters med a c lex n y w s)) k = Some (sqrt (ln (1 + alpha) - ln alpha)).
Proof.
  intros Ha Hc Hy Hw Hs Py Pw Hk alpha beta.
  assert (A : 2 <= alpha).
  { unfold alpha, nb_alpha. assert (0 <= bin_sum lex (fun j => at_row w j * at_row y j / (a + c * exp (at_row s j))) k); [|lra].
    apply bin_sum_nonneg. intros j _. pose proof (denominator_pos a c (nth j s 0) Ha Hc).
    apply Rmult_le_pos; [apply Rmult_le_pos; apply nonneg_at; auto|left; apply Rinv_0_lt_compat; auto]. }
  assert (B : 167834 / 100000 <= beta).
  { unfold beta, nb_beta. assert (0 <= bin_sum lex (fun j => at_row w j * exp (at_row s j) / (a + c * exp (at_row s j))) k); [|lra].
    apply bin_sum_nonneg. intros j _. pose proof (denominator_pos a c (nth j s 0) Ha Hc). pose proof (exp_pos (nth j s 0)).
    apply Rmult_le_pos; [apply Rmult_le_pos; [apply nonneg_at; auto|lra]|left; apply Rinv_0_lt_compat; auto]. }
  split; [exact A|]. split; [exact B|].
  destruct (nb_totals a c lex y w s k Hy Hw Hs) as [E1 E2]. fold alpha in E1. fold beta in E2.
  unfold nbinom_parameters, calc_factors_and_uncertainties. cbv zeta. cbn [fst snd]. split.
  - apply nth_error_map2; rewrite nth_error_map, nth_bincounts by auto; cbn [option_map]; congruence.
  - rewrite !nth_error_map, nth_bincounts by auto. cbn [option_map]. rewrite E1. reflexivity.
Qed.
End Gamma.

Lemma nbinom_well_defined med : (forall a, 0 < a -> 0 < med a) -> forall a c lex n y w s k,
  0 < a -> 0 <= c -> per_row lex y -> per_row lex w -> per_row lex s -> nonneg y -> nonneg w -> (k < n)%nat ->
  exists alpha beta estimate uncertainty,
    alpha = 2 + bin_sum lex (fun j => at_row w j * at_row y j / (a + c * exp (at_row s j))) k /\
    beta = 167834 / 100000 + bin_sum lex (fun j => at_row w j * exp (at_row s j) / (a + c * exp (at_row s j))) k /\
    2 <= alpha /\ 167834 / 100000 <= beta /\
    (estimate = med alpha / beta \/ estimate = alpha / beta /\ 1000000000000 < Rmax alpha beta) /\ 0 < estimate /\
    nth_error (fst (nbinom_parameters med a c lex n y w s)) k = Some (ln estimate) /\
    nth_error (snd (nbinom_parameters med a c lex n y w s)) k = Some uncertainty /\
    0 < uncertainty /\ uncertainty ^ 2 = ln (1 + 1 / alpha) /\
    ((forall j, ~ row_in lex k j) -> alpha = 2 /\ beta = 167834 / 100000).
Proof.
  intros Hm a c lex n y w s k Ha Hc Hy Hw Hs Py Pw Hk.
  destruct (nbinom_bin med a c lex n y w s k Ha Hc Hy Hw Hs Py Pw Hk) as (A & B & F & U).
  exists (nb_alpha a c lex y w s k), (nb_beta a c lex w s k),
    (posterior_estimate med (nb_alpha a c lex y w s k) (nb_beta a c lex w s k)),
    (sqrt (ln (1 + nb_alpha a c lex y w s k) - ln (nb_alpha a c lex y w s k))).
  split; [reflexivity|]. split; [reflexivity|]. split; [exact A|]. split; [exact B|].
  destruct (uncertainty_value (nb_alpha a c lex y w s k) ltac:(lra)) as [U1 U2].
  split.
  { unfold posterior_estimate. destruct (Rleb _ _ && Rleb _ _) eqn:E; [left; reflexivity|right; split; [reflexivity|]].
    apply andb_false_iff in E. unfold Rmax. destruct (Rle_dec _ _); destruct E as [E|E]; apply Rleb_false in E; lra. }
  split; [apply estimate_pos; auto; lra|]. split; [exact F|]. split; [exact U|]. split; [exact U1|]. split; [exact U2|].
  intro He. unfold nb_alpha, nb_beta. rewrite !bin_sum_empty by auto. split; ring.
Qed.

Lemma at_app_l (u v : list R) j : (j < length u)%nat -> nth j (u ++ v) 0 = nth j u 0.
Proof. apply app_nth1. Qed.

Lemma more_evidence med a c lex n y w s lex' y' w' s' k u u' :
  0 < a -> 0 <= c -> per_row lex y -> per_row lex w -> per_row lex s ->
  per_row lex' y' -> per_row lex' w' -> per_row lex' s' ->
  nonneg y -> nonneg w -> nonneg y' -> nonneg w' -> (k < n)%nat ->
  nth_error (snd (nbinom_parameters med a c lex n y w s)) k = Some u ->
  nth_error (snd (nbinom_parameters med a c (lex ++ lex') n (y ++ y') (w ++ w') (s ++ s'))) k = Some u' ->
  u' <= u.
Proof.
  intros Ha Hc Hy Hw Hs Hy' Hw' Hs' Py Pw Py' Pw' Hk Hu Hu'.
  assert (app_row : forall v v', per_row lex v -> per_row lex' v' -> per_row (lex ++ lex') (v ++ v')).
  { unfold per_row. intros v v' H1 H2. rewrite !app_length. congruence. }
  assert (app_nn : forall v v', nonneg v -> nonneg v' -> nonneg (v ++ v')).
  { intros v v' H1 H2 x Hx. apply in_app_or in Hx. destruct Hx; auto. }
  destruct (nbinom_bin med a c lex n y w s k Ha Hc Hy Hw Hs Py Pw Hk) as (A & _ & _ & U).
  destruct (nbinom_bin med a c (lex ++ lex') n (y ++ y') (w ++ w') (s ++ s') k Ha Hc) as (A' & _ & _ & U'); auto.
  rewrite U in Hu. rewrite U' in Hu'. injection Hu as <-. injection Hu' as <-.
  apply uncertainty_antitone; [lra|]. unfold nb_alpha. rewrite bin_sum_app. apply Rplus_le_compat_l.
  match goal with |- ?x <= ?y + ?z => assert (x = y); [|assert (0 <= z); [|lra]] end.
  - apply bin_sum_ext. intros j Hj. unfold per_row in *. rewrite !app_nth1 by lia. reflexivity.
  - apply bin_sum_nonneg. intros j _. pose proof (denominator_pos a c (nth (length lex + j) (s ++ s') 0) Ha Hc).
    apply Rmult_le_pos; [apply Rmult_le_pos; apply nonneg_at; auto|left; apply Rinv_0_lt_compat; auto].
Qed.

(** ** C31 *)
Lemma bin_sum_chi lex w x k m :
  bin_sum lex (fun j => at_row w j * (at_row x j - m) ^ 2) k =
  bin_sum lex (fun j => at_row w j * at_row x j ^ 2) k - 2 * m * bin_sum lex (fun j => at_row w j * at_row x j) k
  + m ^ 2 * bin_sum lex (at_row w) k.
Proof.
  rewrite (bin_sum_ext lex _ (fun j => (at_row w j * at_row x j ^ 2 + (-2 * m) * (at_row w j * at_row x j)) + m ^ 2 * at_row w j))
    by (intros; ring).
  rewrite (bin_sum_plus lex (fun j => at_row w j * at_row x j ^ 2 + (-2 * m) * (at_row w j * at_row x j))).
  rewrite (bin_sum_plus lex (fun j => at_row w j * at_row x j ^ 2)).
  rewrite !bin_sum_scal. ring.
Qed.

Lemma generic_bin lex w x ext n x0 w0 k :
  per_row lex w -> per_row lex x -> per_row lex ext -> nonneg w -> nonneg ext -> 0 < w0 -> (k < n)%nat ->
  exists m u, nth_error (calc_factors_generic lex (map2 Rmult w x) w ext n x0 w0) k = Some (Some (m, u)) /\
    (forall m', chi_square lex w x x0 w0 k m <= chi_square lex w x x0 w0 k m') /\
    (forall m', chi_square lex w x x0 w0 k m' = chi_square lex w x x0 w0 k m -> m' = m) /\
    (forall lo hi, lo <= x0 <= hi -> (forall j, row_in lex k j -> lo <= at_row x j <= hi) -> lo <= m <= hi) /\
    0 < u /\
    u ^ 2 = (w0 + bin_sum lex (fun j => at_row ext j * at_row w j) k) / (w0 + bin_sum lex (at_row w) k) ^ 2 /\
    ((forall j, ~ row_in lex k j) -> m = x0 /\ u ^ 2 = 1 / w0).
Proof.
  intros Hw Hx He Pw Pe H0 Hk.
  set (W := bin_sum lex (at_row w) k). set (S := bin_sum lex (fun j => at_row w j * at_row x j) k).
  set (V := bin_sum lex (fun j => at_row ext j * at_row w j) k).
  assert (HW : 0 <= W) by (apply bin_sum_nonneg; intros; apply nonneg_at; auto).
  assert (HV : 0 <= V) by (apply bin_sum_nonneg; intros; apply Rmult_le_pos; apply nonneg_at; auto).
  assert (ES : bin_total lex (map2 Rmult w x) k = S).
  { rewrite bin_total_sum by (apply pr_map2; auto). apply bin_sum_ext. intros j Hj. apply (at_map2 lex); auto. }
  assert (EV : bin_total lex (map2 Rmult ext w) k = V).
  { rewrite bin_total_sum by (apply pr_map2; auto). apply bin_sum_ext. intros j Hj. apply (at_map2 lex); auto. }
  assert (EW : bin_total lex w k = W) by (apply bin_total_sum; auto).
  set (m := (S + w0 * x0) / (W + w0)). set (u := sqrt ((V + w0) / (W + w0) ^ 2)).
  exists m, u. split.
  { unfold calc_factors_generic. rewrite nth_error_map, (nth_error_nth' _ 0%nat) by (rewrite seq_length; auto).
    rewrite seq_nth by auto. cbn [option_map plus]. rewrite ES, EV, EW.
    replace (Reqb (W + w0) 0) with false by (symmetry; apply Reqb_false_iff; lra). reflexivity. }
  assert (Q : forall m', chi_square lex w x x0 w0 k m' = chi_square lex w x x0 w0 k m + (W + w0) * (m' - m) ^ 2).
  { intro m'. unfold chi_square. rewrite !bin_sum_chi. fold S W.
    replace S with (m * (W + w0) - w0 * x0) by (unfold m; field; lra). ring. }
  split; [intro m'; rewrite (Q m'); assert (0 <= (W + w0) * (m' - m) ^ 2) by (apply Rmult_le_pos; [lra|apply pow2_ge_0]); lra|].
  split.
  { intros m' H. rewrite (Q m') in H. assert (E : (W + w0) * (m' - m) ^ 2 = 0) by lra.
    apply Rmult_integral in E. destruct E as [E|E]; [lra|]. cbn in E. rewrite Rmult_1_r in E.
    apply Rmult_integral in E. lra. }
  split.
  { intros lo hi Hlh Hj.
    assert (B1 : bin_sum lex (fun j => lo * at_row w j) k <= S).
    { apply bin_sum_le. intros j Hr. specialize (Hj j Hr). pose proof (nonneg_at w j Pw).
      cbv beta in *. rewrite Rmult_comm. apply Rmult_le_compat_l; lra. }
    assert (B2 : S <= bin_sum lex (fun j => hi * at_row w j) k).
    { apply bin_sum_le. intros j Hr. specialize (Hj j Hr). pose proof (nonneg_at w j Pw).
      cbv beta in *. rewrite (Rmult_comm hi). apply Rmult_le_compat_l; lra. }
    rewrite bin_sum_scal in B1, B2. fold W in B1, B2.
    assert (w0 * lo <= w0 * x0 <= w0 * hi) by (split; apply Rmult_le_compat_l; lra).
    assert (E : m * (W + w0) = S + w0 * x0) by (unfold m; field; lra).
    split; apply (Rmult_le_reg_r (W + w0)); lra. }
  assert (P2 : 0 < (W + w0) ^ 2) by (apply pow_lt; lra).
  assert (P : 0 < (V + w0) / (W + w0) ^ 2) by (apply Rdiv_lt_0_compat; lra).
  split; [apply sqrt_lt_R0; auto|].
  assert (U2 : u ^ 2 = (V + w0) / (W + w0) ^ 2) by (unfold u; rewrite <- Rsqr_pow2, Rsqr_sqrt by lra; reflexivity).
  split; [rewrite U2; f_equal; [lra|f_equal; lra]|].
  intro Hn. assert (EW0 : W = 0) by (apply bin_sum_empty; auto). assert (ES0 : S = 0) by (apply bin_sum_empty; auto).
  assert (EV0 : V = 0) by (apply bin_sum_empty; auto). rewrite U2. unfold m. rewrite EW0, ES0, EV0. split; field; lra.
Qed.

(** ** C32 *)
Lemma sum_centred f w : length f = length w -> sumR w <> 0 -> sumR (map2 Rmult (centred f w) w) = 0.
Proof.
  intros HL H0. unfold centred. set (m := sumR (map2 Rmult f w) / sumR w).
  assert (E : sumR (map2 Rmult (map (fun x => x - m) f) w) = sumR (map2 Rmult f w) - m * sumR w).
  { clearbody m. clear H0. revert w HL. induction f as [|x f IH]; intros [|y w] HL; cbn in *; try discriminate; [lra|].
    rewrite IH by auto. ring. }
  rewrite E. unfold m. field. auto.
Qed.

Lemma bin_total_all lex : forall w n (g : nat -> R), per_row lex w -> (forall b, In b lex -> (b < n)%nat) ->
  sumR (map (fun k => bin_total lex w k * g k) (seq 0 n)) = sumR (map2 (fun b wj => wj * g b) lex w).
Proof.
  unfold per_row. induction lex as [|b lex IH]; intros [|x w] n g HL HB; cbn in HL; try discriminate.
  - cbn [bin_total map2 sumR]. rewrite (sumR_ext _ (fun _ => 0)) by (intros; ring). apply sumR_zero.
  - cbn [bin_total map2 sumR]. rewrite <- (IH w n g) by (auto; intros; apply HB; right; auto).
    rewrite (sumR_ext _ (fun k => (if Nat.eqb b k then x * g b else 0) + bin_total lex w k * g k)).
    2:{ intros k _. destruct (Nat.eqb_spec b k); [subst|]; ring. }
    rewrite sumR_plus. f_equal.
    pose proof (HB b (or_introl eq_refl)) as Hb. revert Hb. clear.
    assert (G : forall m s, sumR (map (fun k => if Nat.eqb b k then x * g b else 0) (seq s m)) =
              if (Nat.leb s b && Nat.ltb b (s + m))%bool then x * g b else 0).
    { induction m as [|m IHm]; intro s; cbn [seq map sumR].
      - replace (Nat.leb s b && Nat.ltb b (s + 0))%bool with false; [reflexivity|].
        destruct (Nat.leb_spec s b), (Nat.ltb_spec b (s + 0)); auto; lia.
      - rewrite IHm. destruct (Nat.eqb_spec b s) as [->|N].
        + rewrite Nat.leb_refl. replace (Nat.leb (S s) s) with false by (symmetry; apply Nat.leb_gt; lia).
          replace (Nat.ltb s (s + S m)) with true by (symmetry; apply Nat.ltb_lt; lia). cbn. ring.
        + replace (Nat.leb (S s) b && Nat.ltb b (S s + m))%bool with (Nat.leb s b && Nat.ltb b (s + S m))%bool; [ring|].
          destruct (Nat.leb_spec s b), (Nat.ltb_spec b (s + S m)), (Nat.leb_spec (S s) b), (Nat.ltb_spec b (S s + m)); auto; lia. }
    intro Hb. rewrite G. replace (Nat.leb 0 b && Nat.ltb b (0 + n))%bool with true; [reflexivity|].
    symmetry. apply andb_true_iff. split; [reflexivity|apply Nat.ltb_lt; auto].
Qed.

Lemma sum_map2_seq f w n : length f = n -> length w = n ->
  sumR (map2 Rmult f w) = sumR (map (fun k => nth k w 0 * nth k f 0) (seq 0 n)).
Proof.
  revert w n. induction f as [|x f IH]; intros [|y w] [|n] H1 H2; cbn in *; try discriminate; [reflexivity|].
  rewrite (IH w n) by auto. rewrite <- seq_shift, map_map. rewrite Rmult_comm. reflexivity.
Qed.

Lemma bincounts_nth lex w n k : (k < n)%nat -> nth k (bincounts lex w n) 0 = bin_total lex w k.
Proof. intro H. apply nth_error_nth. apply nth_bincounts. auto. Qed.

Lemma row_sum lex w n g : per_row lex w -> (forall b, In b lex -> (b < n)%nat) -> length g = n ->
  sumR (map2 (fun b wj => wj * nth b g 0) lex w) = sumR (map2 Rmult g (bincounts lex w n)).
Proof.
  intros HL HB Hg. rewrite <- (bin_total_all lex w n (fun b => nth b g 0)) by auto.
  rewrite (sum_map2_seq g _ n) by (auto using bincounts_length). apply sumR_ext. intros k Hk. apply in_seq in Hk.
  rewrite bincounts_nth by lia. reflexivity.
Qed.

Lemma centred_length f w : length (centred f w) = length f.
Proof. apply map_length. Qed.
Lemma removelast_length {A} (l : list A) n : length l = S n -> length (removelast l) = n.
Proof.
  intro H. assert (l <> []) by (destruct l; discriminate). destruct (exists_last H0) as (l' & x & ->).
  rewrite app_length in H. cbn in H. rewrite removelast_last. lia.
Qed.
Lemma calibrate_length mnl ws f n : length f = S n -> length (calibrate mnl ws f) = S n.
Proof.
  intro H. unfold calibrate. destruct mnl; [|rewrite centred_length; auto].
  rewrite app_length, centred_length, (removelast_length f n) by auto. cbn. lia.
Qed.
Lemma nth_removelast {A} (l : list A) d k : (S k < length l)%nat -> nth k (removelast l) d = nth k l d.
Proof.
  intro H. assert (H0 : l <> []) by (destruct l; cbn in H; [lia|discriminate]). destruct (exists_last H0) as (l' & x & ->).
  rewrite app_length in H. cbn in H. rewrite removelast_last, app_nth1 by lia. reflexivity.
Qed.

(** The weight that enters the mean: of all rows, or of those outside the last bin. *)
Lemma sumR_bincounts lex w n : per_row lex w -> (forall b, In b lex -> (b < n)%nat) ->
  sumR (bincounts lex w n) = sumR w.
Proof.
  intros HL HB. unfold bincounts. rewrite (sumR_ext _ (fun k => bin_total lex w k * 1)) by (intros; ring).
  rewrite (bin_total_all lex w n (fun _ => 1)) by auto. clear HB. unfold per_row in HL. revert w HL.
  induction lex as [|b lex IH]; intros [|x w] HL; cbn in *; try discriminate; [reflexivity|]. rewrite IH by auto. ring.
Qed.
Lemma removelast_bincounts lex w n : removelast (bincounts lex w (S n)) = bincounts lex w n.
Proof. unfold bincounts. rewrite seq_S, map_app; cbn [map]; rewrite removelast_last. reflexivity. Qed.
Lemma sumR_bincounts_rest lex w n : per_row lex w -> (forall b, In b lex -> (b <= n)%nat) ->
  sumR (bincounts lex w n) = sumR (map2 (fun b wj => if Nat.eqb b n then 0 else wj) lex w).
Proof.
  intros HL HB. unfold bincounts.
  pose proof (bin_total_all lex w (S n) (fun b => if Nat.eqb b n then 0 else 1) HL) as E.
  rewrite seq_S, map_app, sumR_app in E. cbn [map sumR plus] in E. rewrite Nat.eqb_refl in E.
  rewrite (sumR_ext _ (bin_total lex w)) in E.
  2:{ intros k Hk. apply in_seq in Hk. replace (Nat.eqb k n) with false; [ring|]. symmetry. apply Nat.eqb_neq. lia. }
  transitivity (sumR (map2 (fun b wj => wj * (if Nat.eqb b n then 0 else 1)) lex w)).
  - rewrite <- E; [ring|]. intros b Hb. specialize (HB b Hb). lia.
  - f_equal. clear. revert w. induction lex as [|b lex IH]; intros [|x w]; cbn; auto. rewrite IH. f_equal.
    destruct (Nat.eqb b n); ring.
Qed.

Lemma calibrate_zero (mnl : bool) lex w n f : per_row lex w -> (forall b, In b lex -> (b <= n)%nat) -> length f = S n ->
  (if mnl then sumR (map2 (fun b wj => if Nat.eqb b n then 0 else wj) lex w) else sumR w) <> 0 ->
  let f' := calibrate mnl (bincounts lex w (S n)) f in
  length f' = S n /\
  sumR (map2 (fun b wj => wj * nth b f' 0) lex w) = 0 /\
  (mnl = true -> nth n f' 0 = 0) /\
  (forall i j, (i <= n)%nat -> (j <= n)%nat -> (mnl = true -> i <> n /\ j <> n) ->
     nth i f' 0 - nth j f' 0 = nth i f 0 - nth j f 0).
Proof.
  intros HL HB Hf H0 f'. assert (HB' : forall b, In b lex -> (b < S n)%nat) by (intros b Hb; specialize (HB b Hb); lia).
  split; [apply calibrate_length; auto|]. split; [|split].
  - unfold f'. rewrite (row_sum lex w (S n)) by (auto using calibrate_length). unfold calibrate. destruct mnl.
    + rewrite removelast_bincounts.
      assert (EB : bincounts lex w (S n) = bincounts lex w n ++ [bin_total lex w n])
        by (unfold bincounts; rewrite seq_S, map_app; reflexivity).
      rewrite EB.
      assert (A : forall (a b : list R) x y, length a = length b -> map2 Rmult (a ++ [x]) (b ++ [y]) = map2 Rmult a b ++ [x * y]).
      { induction a as [|u a IH]; intros [|v b] x y HE; cbn in *; try discriminate; [reflexivity|]. f_equal. auto. }
      rewrite A by (rewrite centred_length, bincounts_length; apply removelast_length; auto).
      rewrite sumR_app, sum_centred.
      * cbn. ring.
      * rewrite bincounts_length. apply removelast_length. auto.
      * rewrite sumR_bincounts_rest by auto. exact H0.
    + apply sum_centred; [rewrite bincounts_length; auto|rewrite sumR_bincounts; auto].
  - intros ->. unfold f', calibrate. rewrite app_nth2; rewrite centred_length, (removelast_length f n) by auto; [|lia].
    rewrite Nat.sub_diag. reflexivity.
  - intros i j Hi Hj Hm. unfold f', calibrate.
    assert (N : forall g ww i, (i < length g)%nat -> nth i (centred g ww) 0 = nth i g 0 - sumR (map2 Rmult g ww) / sumR ww).
    { intros g ww i0 Hi0. unfold centred. set (m := sumR _ / _). rewrite (nth_indep _ 0 (0 - m)) by (rewrite map_length; auto).
      rewrite (map_nth (fun x => x - m)). reflexivity. }
    destruct mnl.
    + destruct (Hm eq_refl) as [Hi' Hj'].
      rewrite !app_nth1 by (rewrite centred_length, (removelast_length f n) by auto; lia).
      rewrite !N by (rewrite (removelast_length f n) by auto; lia). rewrite !nth_removelast by lia. ring.
    + rewrite !N by lia. ring.
Qed.
