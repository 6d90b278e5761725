(** Trainings compared with their baseline, and constant targets. *)
From Coq Require Import ZArith QArith List Bool Reals Lia Lra Psatz.
From Verif.Model Require Import Num LexBins Train Predict Link Estimators Regularize Gbs BinSmoothers WholeFit.
From Verif.Spec Require Import TrainSpec DataSpec LinkSpec PredictSpec EstimatorSpec RegularizeSpec GbsSpec InsampleSpec ConstantSpec.
From Verif.Proofs Require Import TrainFacts TrainExamples TrainHistory PredictFacts LinkFacts EstimatorFacts RegularizeFacts GbsFacts PipeMonotone InsampleFacts TotalFacts DescentFacts.
Import ListNotations.
Local Open Scope R_scope.

(** ** The loss *)
Lemma kind_loss_value bad k D P : length P = length D -> defined_loss k D ->
  kind_loss bad k (map x_y D) (map x_w D) P = mean_deviation k D (map (unlink_func (kind_link k)) P).
Proof.
  intros L H. assert (LU : length (map (unlink_func (kind_link k)) P) = length D) by (rewrite map_length; exact L).
  unfold kind_loss, mean_deviation. cbv zeta. destruct k; unfold squared_loss; try (rewrite squares_sum, weights_sum by exact LU; reflexivity).
  unfold gbs_loss. cbv zeta. rewrite visits_sum, gbs_squares by exact LU. rewrite (proj2 (Reqb_false_iff _ _)) by exact H. reflexivity.
Qed.

Lemma squares_nonneg D : Forall (fun s => 0 <= x_w s) D -> forall P, 0 <= squares D P.
Proof.
  induction 1 as [|s D H _ IH]; intros [|p P]; cbn [squares]; try lra. specialize (IH P).
  assert (0 <= x_w s * (p - x_y s) ^ 2) by (apply Rmult_le_pos; [exact H|apply pow2_ge_0]). lra.
Qed.
Lemma weight_le D : Forall (fun s => 0 <= x_w s) D -> 0 <= total_weight D.
Proof. induction 1 as [|s D H _ IH]; cbn; [lra|]. unfold total_weight in IH. lra. Qed.
Lemma visits_le D : Forall (fun s => 0 <= x_w s) D -> 0 <= visits D.
Proof. induction 1 as [|s D H _ IH]; cbn [visits]; [lra|]. destruct (Req_EM_T _ _); lra. Qed.

Lemma div_nonneg a b : 0 <= a -> 0 <= b -> 0 <= a / b.
Proof.
  intros A B. destruct (Req_EM_T b 0) as [->|N]; [unfold Rdiv; rewrite Rinv_0; lra|].
  apply Rmult_le_pos; [exact A|left; apply Rinv_0_lt_compat; lra].
Qed.
Lemma div_le a b c : a <= b -> 0 <= c -> a / c <= b / c.
Proof.
  intros A C. destruct (Req_EM_T c 0) as [->|N]; [unfold Rdiv; rewrite Rinv_0; lra|].
  apply Rmult_le_compat_r; [left; apply Rinv_0_lt_compat; lra|exact A].
Qed.
Lemma deviation_nonneg k D P : Forall (fun s => 0 <= x_w s) D -> 0 <= mean_deviation k D P.
Proof.
  intro H. unfold mean_deviation. apply div_nonneg; [apply squares_nonneg; exact H|].
  destruct k; try (apply weight_le; exact H). apply visits_le. exact H.
Qed.

(** ** The final loss *)
Section Final.
Variables (gm : R -> R) (bppf : R -> R -> R -> R) (erfinv : R -> R) (bad : R).
Variables (k : kind) (gs : list group) (cfg : settings) (rate : nat -> nat -> R) (fuel : nat) (D : list sample) (t : model).
Hypothesis Ag : c_aggregate cfg = true.
Hypothesis B : binned_rows gs D.
Hypothesis HW : Forall (fun s => 0 <= x_w s) D.
Hypothesis F : whole_fit gm bppf erfinv bad k false gs cfg rate fuel D = Trained t.
Hypothesis HD : defined_loss k D.

Lemma final_loss : exists P, length P = length D /\ whole_predict k false t D = map (kind_output k) P /\
  kind_scale k (map x_y D) (map x_w D) = Some (o_scale t) /\
  mean_deviation k D (map (unlink_func (kind_link k)) P) <= 2 * mean_deviation k D (baseline k t (length D)).
Proof.
  pose proof F as F'. unfold whole_fit in F'. destruct (kind_scale k (map x_y D) (map x_w D)) as [scale|] eqn:Es; [|discriminate]. cbv zeta in F'.
  set (offset := kind_offset k scale (map x_prior D) (map x_w D)) in F'.
  destruct (train gm bppf erfinv bad k false gs cfg rate fuel D scale offset) as [[st|e]|] eqn:Et; try discriminate. injection F' as <-.
  unfold train in Et. cbv zeta in Et.
  match type of Et with fit_main _ _ _ _ _ _ _ _ ?p = _ => set (p0 := p) in * end.
  destruct (bind_shaped D gs p0 B) as (W & Hd & Hwh); [apply prior_length|apply zeros_length|].
  pose proof (fitted_insample x_bins D _ _ _ _ _ _ _ _ _ _ (bind_rows D gs) W (loop_per_bin gm bppf erfinv bad k _ _ _) Et Ag Hd Hwh) as L.
  cbn beta in L.
  set (P := p_factors (predict_extended (map2 store (bind_groups D 0 gs) (t_feats st)) p0 (map x_bins D))) in *.
  assert (LP : length P = length D).
  { unfold P. rewrite <- trained_store, <- (same_rows x_bins D _ (bind_rows D gs)) by (unfold trained_model; rewrite map_length, combine_length; lia).
    rewrite (insample_all _ _ _ _ _ _ _ _ (length D) W (loop_per_bin gm bppf erfinv bad k _ _ _) fuel st Et Ag Hd (fun f Hf _ => Hwh f Hf)).
    destruct (fit_reached _ _ _ _ _ _ _ _ _ _ Et) as (R & _ & _).
    apply (reached_inv _ _ _ _ _ _ _ _ (length D) W (loop_per_bin gm bppf erfinv bad k _ _ _) st R). }
  exists P. split; [exact LP|]. split.
  { unfold whole_predict. cbn [o_scale o_offset o_groups]. unfold cb_predict. replace (@length datarow (map x_bins D)) with (length D) by (symmetry; apply map_length). reflexivity. }
  split; [reflexivity|]. rewrite <- (kind_loss_value bad k D P LP HD). rewrite <- L. unfold baseline. cbn [o_scale].
  destruct (fit_reached _ _ _ _ _ _ _ _ _ _ Et) as (R & C & _).
  assert (ND : t_isdiv st = false) by (unfold continues in C; apply orb_false_iff in C; tauto).
  assert (E0 : mean_deviation k D (repeat (unlink_func (kind_link k) scale) (length D)) = kind_loss bad k (map x_y D) (map x_w D) (p_factors p0)).
  { rewrite kind_loss_value by (try exact HD; apply repeat_length). cbn [p_factors p0 linked_column prior_predictions]. rewrite map_repeat_eq. reflexivity. }
  rewrite E0. destruct (loss_not_diverging _ _ _ _ _ _ _ _ st R ND) as [H|H]; cbv beta in H; [lra|].
  rewrite H. rewrite <- E0. pose proof (deviation_nonneg k D (repeat (unlink_func (kind_link k) scale) (length D)) HW). lra.
Qed.

Lemma clipped_squares : Forall (fun s => 0 <= x_y s) D -> forall P, length P = length D ->
  squares D (map (kind_output LocPoissonRegressor) P) <= squares D (map (unlink_func (kind_link LocPoissonRegressor)) P).
Proof.
  clear - HW. induction HW as [|s D' H _ IH]; intros Y [|p P] L; cbn [map squares]; try lra. inversion Y; subst. cbn in L.
  specialize (IH ltac:(inversion HW; assumption) H3 P ltac:(lia)).
  assert (K : x_w s * (kind_output LocPoissonRegressor p - x_y s) ^ 2 <= x_w s * (unlink_func (kind_link LocPoissonRegressor) p - x_y s) ^ 2).
  { apply Rmult_le_compat_l; [exact H|]. cbn [kind_output kind_link unlink_func]. unfold Rltb. destruct (Rlt_dec 0 p); [lra|]. nra. }
  lra.
Qed.

Theorem at_most_twice : usable_targets k D ->
  mean_deviation k D (whole_predict k false t D) <= 2 * mean_deviation k D (baseline k t (length D)).
Proof.
  intro U. destruct final_loss as (P & LP & -> & _ & H). eapply Rle_trans; [|exact H].
  unfold usable_targets in U. destruct k; try (right; reflexivity).
  unfold mean_deviation. apply div_le; [apply clipped_squares; assumption|apply weight_le; exact HW].
Qed.

(** Constant targets. *)
Variable c : R.
Hypothesis HC : Forall (fun s => x_y s = c) D.
Hypothesis HT : total_weight D <> 0.

Lemma weighted_targets : sumR (map2 Rmult (map x_y D) (map x_w D)) = c * total_weight D.
Proof. clear - HC. induction HC as [|s D' H HC' IH]; cbn; [ring|]. rewrite (IH HC'), H. unfold total_weight. ring. Qed.
Lemma squares_repeat a : squares D (repeat a (length D)) = (a - c) ^ 2 * total_weight D.
Proof. clear - HC. induction HC as [|s D' H HC' IH]; cbn [length repeat squares total_weight fold_right]; [ring|]. rewrite (IH HC'), H. unfold total_weight. ring. Qed.

Theorem constant_close : (forall al, k <> GBSRegressor al) -> usable_targets k D ->
  mean_deviation k D (whole_predict k false t D) <= 2 * (1 / 1000) ^ 2.
Proof.
  intros NG U. eapply Rle_trans; [exact (at_most_twice U)|]. destruct final_loss as (_ & _ & _ & S & _).
  assert (E : unlink_func (kind_link k) (o_scale t) = c + 1 / 1000).
  { assert (G : global_scale (kind_link k) (map x_y D) (map x_w D) = Some (o_scale t)) by (destruct k; try exact S; exfalso; eapply NG; reflexivity).
    unfold global_scale in G. rewrite (proj2 (weighted_mean_some _ _ c)) in G; [apply unlink_link; exact G|].
    rewrite weights_sum. split; [exact HT|]. unfold is_weighted_mean. rewrite weights_sum, weighted_targets. reflexivity. }
  assert (M : mean_deviation k D (baseline k t (length D)) = (1 / 1000) ^ 2).
  { unfold mean_deviation, baseline. rewrite squares_repeat, E. destruct k; try (field; exact HT). exfalso; eapply NG; reflexivity. }
  rewrite M. lra.
Qed.

Lemma squares_zero : forall D' P, Forall (fun s => 0 <= x_w s) D' -> length P = length D' -> squares D' P <= 0 ->
  forall j s p, nth_error D' j = Some s -> nth_error P j = Some p -> 0 < x_w s -> p = x_y s.
Proof.
  clear. induction D' as [|a D' IH]; intros [|q P] H L Z [|j] s p Es Ep Pw; cbn in *; try discriminate; inversion H; subst.
  - injection Es as ->. injection Ep as ->. pose proof (squares_nonneg D' H3 P) as N.
    assert (0 <= x_w s * (p - x_y s) ^ 2) by (apply Rmult_le_pos; [lra|apply pow2_ge_0]).
    assert (Q : (p - x_y s) ^ 2 = 0) by (apply (Rmult_eq_reg_l (x_w s)); cbn in *; lra).
    assert (p - x_y s = 0) by (apply Rsqr_0_uniq; unfold Rsqr; lra). lra.
  - apply (IH P H3 ltac:(lia)) with (j := j); auto.
    assert (0 <= x_w a * (q - x_y a) ^ 2) by (apply Rmult_le_pos; [lra|apply pow2_ge_0]). cbn in *. lra.
Qed.
End Final.

Theorem constant_exact gm bppf erfinv bad al gs cfg rate fuel D t c :
  c_aggregate cfg = true -> binned_rows gs D -> Forall (fun s => 0 <= x_w s) D ->
  whole_fit gm bppf erfinv bad (GBSRegressor al) false gs cfg rate fuel D = Trained t ->
  Forall (fun s => x_y s = c) D -> total_weight D <> 0 -> c <> 0 ->
  forall j s p, nth_error D j = Some s -> 0 < x_w s -> nth_error (whole_predict (GBSRegressor al) false t D) j = Some p -> p = c.
Proof.
  intros Ag B HW F HC HT Nc j s p Es Pw Ep.
  assert (V : visits D = total_weight D).
  { clear - HC Nc. induction HC as [|a D' H _ IH]; cbn [visits total_weight fold_right]; [reflexivity|]. rewrite IH, H.
    destruct (Req_EM_T c 0); [contradiction|reflexivity]. }
  assert (HD : defined_loss (GBSRegressor al) D) by (cbn; rewrite V; exact HT).
  pose proof (at_most_twice gm bppf erfinv bad (GBSRegressor al) gs cfg rate fuel D t Ag B HW F HD I) as M.
  destruct (final_loss gm bppf erfinv bad (GBSRegressor al) gs cfg rate fuel D t Ag B HW F HD) as (P & LP & EP & S & _).
  assert (E : o_scale t = c).
  { cbn [kind_scale] in S. unfold gbs_global_scale in S. rewrite weights_sum, (weighted_targets D c HC) in S.
    rewrite (proj2 (Reqb_false_iff _ _)) in S by exact HT. injection S as <-. field. exact HT. }
  assert (Z : mean_deviation (GBSRegressor al) D (baseline (GBSRegressor al) t (length D)) = 0).
  { unfold mean_deviation, baseline. cbn [kind_link unlink_func]. rewrite (squares_repeat D c HC), E. unfold Rdiv. ring. }
  rewrite Z in M. replace c with (x_y s) by (rewrite Forall_forall in HC; apply HC, (nth_error_In _ _ Es)).
  refine (squares_zero D _ HW _ _ j s p Es Ep Pw); [rewrite EP, map_length; exact LP|].
  unfold mean_deviation in M. rewrite V in M. pose proof (weight_le D HW).
  apply (Rmult_le_reg_r (/ total_weight D)); [apply Rinv_0_lt_compat; lra|]. unfold Rdiv in M. lra.
Qed.

(** ** The background subtraction regressor on constant targets *)
Definition null (l : list R) : Prop := forall x, In x l -> x = 0.

Lemma null_nth l k : null l -> nth k l 0 = 0.
Proof. intro H. destruct (Nat.lt_ge_cases k (length l)) as [L|L]; [apply H, nth_In; exact L|apply nth_overflow; exact L]. Qed.
Lemma null_firstn n l : null l -> null (firstn n l).
Proof. intros H x I. apply H. rewrite <- (firstn_skipn n l). apply in_or_app. auto. Qed.
Lemma nth_const (c : R) n j : (j < n)%nat -> nth j (repeat c n) 0 = c.
Proof. revert j. induction n as [|n IH]; intros [|j] H; cbn; try lia; auto. apply IH. lia. Qed.
Lemma null_vadd a b : null a -> null b -> null (vadd a b).
Proof.
  unfold vadd. revert b. induction a as [|x a IH]; intros [|y b] A B v I; cbn in I; try contradiction.
  destruct I as [<-|I]; [rewrite (A x), (B y) by (left; reflexivity); ring|].
  apply (IH b); auto; intros z Z; [apply A|apply B]; right; exact Z.
Qed.
Lemma null_vadd_keep p g : length g = length p -> null g -> vadd p g = p.
Proof. intros L H. apply vadd_zero; [exact L|]. intros; apply null_nth; exact H. Qed.
Lemma null_gather v lex : null v -> null (gather v lex).
Proof. intros H x I. unfold gather in I. apply in_map_iff in I. destruct I as (b & <- & _). apply null_nth. exact H. Qed.

(** The predictions of groups without any effect. *)
Definition inert (m : trained) : Prop := m_ext m = false /\ null (m_values m) /\ m_missing m = 0.
Lemma inert_factors m rows : inert m -> null (predict_factors m rows).
Proof.
  intros (_ & V & M) x I. unfold predict_factors in I. cbv zeta in I. apply in_map_iff in I. destruct I as (r & <- & _).
  destruct (row_finite_semi_positive r); [|exact M]. destruct (_ && _); [|reflexivity].
  unfold smoother_predict, onedim_predict, multidim_predict.
  destruct (Nat.ltb _ _); [destruct (_ && _ && _)|destruct (floors_below _ _)]; try reflexivity; rewrite null_nth by exact V; ring.
Qed.
Lemma inert_predict ms X : forall i p, Forall inert ms -> length (p_factors p) = length X -> predict_from i ms p X = p.
Proof.
  induction ms as [|m ms IH]; intros i p H L; [reflexivity|]. inversion H as [|? ? Hm Hr]; subst. cbn [predict_from].
  destruct Hm as (E & Hm'). rewrite E. cbn [add_preds]. rewrite null_vadd_keep.
  - destruct p. apply IH; assumption.
  - unfold predict_factors. cbv zeta. rewrite !map_length. symmetry. exact L.
  - apply inert_factors. split; assumption.
Qed.

Lemma bound_group D i0 : forall gs' i f, nth_error (bind_groups D i0 gs') i = Some f ->
  exists g, nth_error gs' i = Some g /\ f = bind_group D (i0 + i) g.
Proof.
  intro gs'. revert i0. induction gs' as [|g gs' IH]; intros i0 [|i] f E; cbn in E; try discriminate.
  - exists g. rewrite Nat.add_0_r. split; [reflexivity|congruence].
  - destruct (IH (S i0) i f E) as (g' & A & B). exists g'. split; [exact A|]. rewrite B. f_equal. lia.
Qed.

Section Constant.
Variables (gm : R -> R) (bppf : R -> R -> R -> R) (erfinv : R -> R) (bad al : R).
Variables (gs : list group) (cfg : settings) (rate : nat -> nat -> R) (D : list sample) (c : R).
Hypothesis Ha : 0 <= al.
Hypothesis HB : binned_rows gs D.
Hypothesis HW : Forall (fun s => 0 <= x_w s) D.
Hypothesis HC : Forall (fun s => x_y s = c) D.
Hypothesis Nc : c <> 0.
Hypothesis HT : total_weight D <> 0.
Hypothesis HK : Forall (fun g => keeps_zero (g_smoother g)) gs.
Hypothesis Hlog : c_log cfg = false.
Hypothesis Hagg : c_aggregate cfg = true.
Notation y := (map x_y D).
Notation w := (map x_w D).
Notation fl := (bind_groups D 0 gs).
Notation kd := (GBSRegressor al).
Notation calc := (fun i (_ : nat) p => map (estimate_value bad) (group_estimates gm bppf erfinv kd fl y w i p)).
Notation smooth := (fun i (_ : nat) p => group_smoother gm bppf erfinv bad kd gs fl y w i p).
Notation loss := (fun p => kind_loss bad kd y w (p_factors p)).
Notation nf := (new_factors calc smooth (kind_calibration kd fl w) rate).
Notation fiter := (feature_iteration cfg calc smooth (kind_calibration kd fl w) rate loss).
Notation fpass := (features_pass cfg calc smooth (kind_calibration kd fl w) rate loss).
Notation iter := (iteration cfg fl calc smooth (kind_calibration kd fl w) rate loss).
Notation start := {| p_factors := repeat c (length D); p_exponents := zeros (length D) |}.

Lemma const_nonneg : nonneg w.
Proof. intros x I. apply in_map_iff in I. destruct I as (s & <- & I). rewrite Forall_forall in HW. auto. Qed.

Lemma const_group i f : nth_error fl i = Some f -> f_ext f = false /\ length (f_rows f) = length D /\
  exists g, nth_error gs i = Some g /\ keeps_zero (g_smoother g).
Proof.
  intro E. destruct (bound_group D 0 gs i f E) as (g & Eg & ->). split; [reflexivity|]. split; [cbn; apply map_length|].
  exists g. split; [exact Eg|]. rewrite Forall_forall in HK. apply HK, (nth_error_In _ _ Eg).
Qed.

Lemma const_values i f : nth_error fl i = Some f -> null (calc i 0%nat start) /\ length (calc i 0%nat start) = S (f_finite f).
Proof.
  intro E. destruct (const_group i f E) as (_ & LF & _). unfold group_estimates. rewrite E. cbn [estimates p_factors].
  assert (Pl : per_row (f_lex f) y /\ per_row (f_lex f) w /\ per_row (f_lex f) (repeat c (length D))).
  { unfold per_row. rewrite !map_length, repeat_length, f_lex_length. lia. } destruct Pl as (Py & Pw & Pp).
  assert (LG : length (gbs_parameters al (f_lex f) (S (f_finite f)) y w (repeat c (length D))) = S (f_finite f))
    by (unfold gbs_parameters; rewrite map_length, seq_length; reflexivity).
  split; [|rewrite map_length; exact LG].
  intros x I. apply (In_nth _ _ 0) in I. rewrite map_length, LG in I. destruct I as (k & Hk & <-).
  apply nth_error_nth. rewrite nth_error_map, (gbs_value _ _ _ _ _ _ Py Pw Pp _ const_nonneg Ha Hk). cbn [option_map estimate_value]. f_equal.
  rewrite (bin_sum_ext_in _ _ (fun _ => 0)).
  - assert (Z : bin_sum (f_lex f) (fun _ => 0) k = 0).
    { rewrite (bin_sum_ext _ _ (fun _ => 0 * 0)) by (intros; ring). rewrite bin_sum_scal. ring. }
    rewrite Z. unfold Rdiv. ring.
  - intros j J. assert (Jl : (j < length D)%nat). { rewrite <- LF, <- (f_lex_length f). apply nth_error_Some. unfold row_in in J. congruence. }
    destruct (nth_error D j) as [s|] eqn:Ej; [|apply nth_error_None in Ej; lia].
    rewrite (nth_error_nth y j 0 (eq_trans (nth_error_map _ _ _) (f_equal (option_map x_y) Ej))).
    rewrite Forall_forall in HC. rewrite (HC s (nth_error_In _ _ Ej)). rewrite nth_const by exact Jl. ring.
Qed.

Lemma const_factors i f s it : nth_error fl i = Some f -> null (snd (nf i f s it start)).
Proof.
  intro E. destruct (const_group i f E) as (_ & LF & g & Eg & Kg). destruct (const_values i f E) as (Z & LV). cbv beta in Z, LV.
  unfold new_factors, kind_calibration. cbn [snd]. cbv zeta. set (vals := map (estimate_value bad) (group_estimates gm bppf erfinv kd fl y w i start)) in *.
  intros x I. apply in_app_or in I. destruct I as [I|[<-|[]]].
  - apply in_map_iff in I. destruct I as (b & <- & Ib). apply in_seq in Ib. destruct (s_zero s); [ring|].
    destruct (group_smoother gm bppf erfinv bad kd gs fl y w i start (firstn (f_finite f) vals) b) as [v|] eqn:Es; [|reflexivity].
    unfold group_smoother in Es. rewrite Eg, E in Es. assert (V0 : v = 0).
    { eapply Kg; [| | |exact Es].
      - rewrite !firstn_length, LV, map_length. unfold vals in LV. rewrite map_length in LV. rewrite LV. reflexivity.
      - apply null_firstn. exact Z.
      - rewrite firstn_length, LV. lia. }
    rewrite V0. ring.
  - destruct (f_mnl f); [reflexivity|]. rewrite null_nth by exact Z. ring.
Qed.

Definition calm (s : fstate) : Prop := match s_agg s with Some a => null a | None => True end.

Lemma const_step i f s it d k i0 : nth_error fl i = Some f -> calm s -> exists s', fiter i f s it start d k i0 = Ok (s', start) /\ calm s'.
Proof.
  intros E C. destruct (const_group i f E) as (EX & LF & _). unfold feature_iteration. rewrite Hagg. cbv zeta.
  pose proof (const_factors i f s it E) as Z. destruct (nf i f s it start) as [u fs]. cbn [snd] in Z.
  unfold visit_factors, limit_factors. rewrite Hlog, EX. cbn [andb s_factors add_preds p_factors p_exponents].
  rewrite null_vadd_keep; [|rewrite gather_length, repeat_length, f_lex_length; exact LF|apply null_gather; exact Z].
  eexists. split; [reflexivity|]. unfold calm in *. cbn [s_agg]. rewrite Hagg, andb_true_r.
  destruct (s_fitted s); [|exact Z]. destruct (s_agg s) as [a|]; [apply null_vadd; assumption|exact Z].
Qed.

Lemma const_pass fl' : forall i sl it d k i0,
  (forall m f, nth_error fl' m = Some f -> nth_error fl (i + m) = Some f) -> Forall calm sl ->
  exists sl', fpass i fl' sl it start d k i0 = Ok (sl', start) /\ Forall calm sl'.
Proof.
  induction fl' as [|f fl' IH]; intros i sl it d k i0 Hf C; [exists []; cbn; auto|].
  destruct sl as [|s sl]; [exists []; cbn; auto|]. inversion C as [|? ? C1 C2]; subst.
  assert (Hi : nth_error fl i = Some f). { rewrite <- (Nat.add_0_r i). apply (Hf 0%nat). reflexivity. }
  assert (Hf' : forall m g, nth_error fl' m = Some g -> nth_error fl (S i + m) = Some g).
  { intros m g Hg. replace (S i + m)%nat with (i + S m)%nat by lia. apply (Hf (S m)). exact Hg. }
  cbn [features_pass]. destruct (skipped cfg f it).
  - destruct (IH (S i) sl it d k i0 Hf' C2) as (sl' & E & C'). rewrite E. eexists. split; [reflexivity|]. constructor; [exact C1|exact C'].
  - destruct (const_step i f s it d k i0 Hi C1) as (s' & E1 & C1'). rewrite E1.
    destruct (IH (S i) sl it d k i0 Hf' C2) as (sl' & E & C'). rewrite E. eexists. split; [reflexivity|]. constructor; assumption.
Qed.

Lemma const_loss : loss start = 0.
Proof.
  assert (V : visits D = total_weight D).
  { clear - HC Nc. induction HC as [|a D' H HC' IH]; cbn [visits total_weight fold_right]; [reflexivity|]. rewrite (IH HC'), H.
    destruct (Req_EM_T c 0); [contradiction|reflexivity]. }
  cbn [p_factors]. rewrite (kind_loss_value bad kd D (repeat c (length D)) (repeat_length _ _)) by (cbn; rewrite V; exact HT).
  cbn [kind_link]. rewrite map_repeat_eq. cbn [unlink_func]. unfold mean_deviation. rewrite (squares_repeat D c HC). unfold Rdiv. ring.
Qed.

Definition still (st : state) : Prop := t_preds st = start /\ t_loss st = 0 /\ t_isdiv st = false /\ Forall calm (t_feats st).

Lemma const_iteration st : still st -> exists st', iter 0 st = Ok st' /\ still st'.
Proof.
  intros (S1 & S2 & S3 & S4). unfold iteration. rewrite S1.
  destruct (const_pass fl 0 (t_feats st) (t_iter st) (t_isdiv st) (t_diverging st) 0 ltac:(intros m f H; exact H) S4) as (sl & E & C). rewrite E.
  pose proof const_loss as LS. cbv beta in LS. cbv zeta. rewrite LS.
  assert (ND : is_diverged 0 0 = false) by (unfold is_diverged; apply Rltb_false; lra). rewrite ND. cbn [andb].
  eexists. split; [reflexivity|]. unfold still. cbn. auto.
Qed.

Lemma const_loop fuel : forall st r, still st -> loop cfg fl calc smooth (kind_calibration kd fl w) rate loss fuel 0 st = Some r ->
  r = Raise TypeError \/ exists st', r = Ok st' /\ still st'.
Proof.
  induction fuel as [|fuel IH]; intros st r S E; cbn [loop] in E; destruct (continues cfg st); try discriminate.
  1, 3: injection E as <-; unfold finish; destruct (forallb _ _); [|left; reflexivity]; right; exists st; split; [|exact S];
    destruct S as (_ & L & _); rewrite L; assert (ND : is_diverged 0 0 = false) by (unfold is_diverged; apply Rltb_false; lra); rewrite ND; reflexivity.
  destruct (const_iteration st S) as (st' & E' & S'). rewrite E' in E. exact (IH st' r S' E).
Qed.

Lemma const_train fuel r : train gm bppf erfinv bad kd false gs cfg rate fuel D c 0 = Some r ->
  r = Raise TypeError \/ exists st', r = Ok st' /\ still st'.
Proof.
  intro E. unfold train in E. cbv zeta in E. unfold fit_main in E. cbn [linked_column prior_predictions] in E.
  pose proof const_loss as LS. cbv beta in LS.
  rewrite LS in E. refine (const_loop fuel (init_state fl loss start) r _ E).
  unfold still, init_state. cbn [t_preds t_loss t_isdiv t_feats]. split; [reflexivity|]. split; [exact LS|]. split; [reflexivity|].
  apply Forall_forall. intros s H. apply in_map_iff in H. destruct H as (f & <- & _). exact I.
Qed.

Lemma const_scale : kind_scale kd y w = Some c.
Proof.
  cbn [kind_scale]. unfold gbs_global_scale. rewrite weights_sum, (weighted_targets D c HC).
  rewrite (proj2 (Reqb_false_iff _ _)) by exact HT. f_equal. field. exact HT.
Qed.

Theorem constant_predicted fuel :
  whole_fit gm bppf erfinv bad kd false gs cfg rate fuel D <> Failed ConvergenceError /\
  forall t X, whole_fit gm bppf erfinv bad kd false gs cfg rate fuel D = Trained t ->
    whole_predict kd false t X = repeat c (length X).
Proof.
  unfold whole_fit. rewrite const_scale. cbv zeta. cbn [kind_offset].
  destruct (train gm bppf erfinv bad kd false gs cfg rate fuel D c 0) as [r|] eqn:E; [|split; [discriminate|intros ? ? ?; discriminate]].
  destruct (const_train fuel r E) as [->|(st & -> & S)]; [split; [discriminate|intros ? ? ?; discriminate]|]. split; [discriminate|].
  intros t X F. injection F as <-. unfold whole_predict. cbn [o_scale o_offset o_groups]. unfold cb_predict. cbn [linked_column prior_predictions].
  destruct S as (_ & _ & _ & S).
  assert (IN : Forall inert (map2 store fl (t_feats st))).
  { generalize (t_feats st) S. clear. generalize 0%nat as i. induction gs as [|g r IH]; intros i sl C; cbn [bind_groups map2]; [constructor|].
    destruct C as [|s sl C1 C2]; cbn [map2]; [constructor|]. constructor; [|apply IH; exact C2].
    unfold inert, store. cbn [m_ext m_values m_missing]. split; [reflexivity|]. unfold calm in C1.
    destruct (s_agg s) as [a|]; [split; [apply null_firstn; exact C1|apply null_nth; exact C1]|].
    split; [rewrite firstn_nil; intros x []|destruct (f_finite _); reflexivity]. }
  unfold predict_extended. rewrite inert_predict; [|exact IN|cbn; rewrite repeat_length; reflexivity].
  cbn [p_factors]. rewrite map_repeat_eq, map_length. reflexivity.
Qed.
End Constant.

(** Smoothers that make nothing out of nothing. *)
Lemma values_keep : keeps_zero bin_values.
Proof. intros c w u v b x L Z B E. unfold bin_values in E. apply Z, (nth_error_In _ _ E). Qed.
Lemma cut_keeps s : keeps_zero s -> keeps_zero (cut_unseen s).
Proof. intros H c w u v b x L Z B E. unfold cut_unseen in E. destruct (Reqb (nth b w 0) 0); [discriminate|]. exact (H c w u v b x L Z B E). Qed.
Lemma norm_zero w v : null v -> bins_norm w v = 0.
Proof.
  intro Z. unfold bins_norm. cbv zeta. destruct (Rltb _ _); [|reflexivity].
  assert (S : sumR (map2 Rmult v w) = 0).
  { revert w. induction v as [|a v IH]; intros [|b w]; cbn; try reflexivity. rewrite (Z a (or_introl eq_refl)), IH by (intros x I; apply Z; right; exact I). ring. }
  rewrite S. unfold Rdiv. ring.
Qed.
Lemma normalised_keeps s : keeps_zero s -> keeps_zero (normalised s).
Proof.
  intros H c w u v b x L Z B E. unfold normalised in E. cbv zeta in E. rewrite (norm_zero w v Z) in E.
  destruct (s c w u (map (fun v => v - 0) v) b) as [z|] eqn:Es; [|discriminate]. cbn in E. injection E as <-.
  rewrite (H c w u (map (fun v => v - 0) v) b z); [ring| | | |exact Es]; rewrite ?map_length; auto.
  intros a I. apply in_map_iff in I. destruct I as (q & <- & I). rewrite (Z q I). ring.
Qed.
Lemma mean_keeps prior : match prior with Some p => p = 0 | None => True end -> keeps_zero (weighted_mean_bins prior).
Proof.
  intros P c w u v b x L Z B E. unfold weighted_mean_bins in E.
  assert (Y : nearly_all v 0).
  { intros a I. rewrite (Z a I), Rminus_0_r, Rabs_R0. lra. }
  rewrite (mean_unchanged v u prior (eq_sym L)) in E.
  - rewrite (nth_map_lt _ _ b 0) in E by exact B. injection E as <-. apply Z, nth_In. exact B.
  - destruct prior as [p|]; [rewrite P; exact Y|right; rewrite (null_nth v 0 Z); exact Y].
Qed.
Lemma default_keeps : keeps_zero default_unordered.
Proof. apply cut_keeps, normalised_keeps, mean_keeps. reflexivity. Qed.
