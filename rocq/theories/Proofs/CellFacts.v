(** What a single feature group learns without smoothing. *)
From Coq Require Import ZArith QArith Qround List Bool Reals Lia Lra Psatz.
From Verif.Model Require Import Num LexBins Train Predict Link Estimators Regularize Gbs BinSmoothers WholeFit.
From Verif.Spec Require Import TrainSpec DataSpec LexSpec PredictSpec EstimatorSpec RegularizeSpec GbsSpec InsampleSpec DescentSpec CellSpec.
From Verif.Proofs Require Import TrainFacts TrainExamples LexFacts PredictFacts ImportanceFacts LinkFacts EstimatorFacts GbsFacts PipeMonotone InsampleFacts TotalFacts DescentFacts.
Import ListNotations.
Local Open Scope R_scope.

(** ** Bins of the rows *)
Lemma whole_holds row : row_finite_semi_positive row = true -> (forall x, In x row -> whole x) -> holds_tuple row (map floor_of row).
Proof.
  unfold row_finite_semi_positive. intros F W. apply andb_prop in F. destruct F as [F _]. rewrite forallb_forall in F.
  unfold holds_tuple. induction row as [|x row IH]; [constructor|]. cbn [map]. constructor.
  - destruct (W x (or_introl eq_refl) (F x (or_introl eq_refl))) as (k & q & -> & Q). exists q. split; [reflexivity|].
    cbn [floor_of]. rewrite (Qfloor_comp _ _ Q), Qfloor_Z. exact Q.
  - apply IH; intros; [apply F|apply W]; right; auto.
Qed.

Lemma semi_of_holds a b t : holds_tuple a t -> holds_tuple b t -> row_finite_semi_positive a = row_finite_semi_positive b.
Proof.
  unfold row_finite_semi_positive, holds_tuple. intro H. revert b. induction H as [|x k a t (q & -> & Q) _ IH]; intros b Hb; inversion Hb as [|x' k' b' t' (q' & -> & Q') Hb']; subst; [reflexivity|].
  specialize (IH _ Hb'). cbn [forallb isfinite andb].
  assert (E : LexBins.nonneg (Fin q) = LexBins.nonneg (Fin q')).
  { unfold LexBins.nonneg. cbn [fle]. rewrite Q, Q'. reflexivity. }
  rewrite E. destruct (LexBins.nonneg (Fin q')); cbn [andb]; [exact IH|]. rewrite !andb_false_r. reflexivity.
Qed.

Section Cells.
Variable f : feature.
Hypothesis Hdim : (1 <= f_dim f)%nat.
Hypothesis Hrows : forall r, In r (f_rows f) -> length r = f_dim f.
Hypothesis Hwhole : forall r x, In r (f_rows f) -> In x r -> whole x.

Lemma lex_row j row : nth_error (f_rows f) j = Some row -> row_finite_semi_positive row = true ->
  nth j (f_lex f) 0%nat = Z.to_nat (number (f_nbins f) (map floor_of row)) /\ valid_tuple (f_nbins f) (map floor_of row) /\
  (nth j (f_lex f) 0%nat < f_finite f)%nat.
Proof.
  intros E S. pose proof (nth_error_In _ _ E) as I. rewrite (f_lex_nth f Hdim Hrows j row E), S.
  pose proof (data_rows_valid _ _ _ Hrows I S) as V. rewrite <- f_nbins_data in V.
  pose proof (f_nbins_length f Hrows) as LN. pose proof (Hrows row I) as LR.
  destruct (valid_floors (f_nbins f) row ltac:(lia) V) as (_ & VT).
  assert (Lv : lex_value (f_nbins f) row = number (f_nbins f) (map floor_of row)).
  { unfold lex_value. apply dot_number. rewrite map_length. lia. }
  rewrite Lv. split; [reflexivity|]. split; [exact VT|]. pose proof (number_range _ _ VT) as Rg.
  destruct (f_shape_or_empty f Hdim Hrows) as [(_ & F & _)|(_ & _ & N)]; [rewrite F; lia|rewrite (N row I) in S; discriminate].
Qed.

Lemma lex_missing j row : nth_error (f_rows f) j = Some row -> missing_entry row -> nth j (f_lex f) 0%nat = f_finite f.
Proof. intros E M. apply semi_positive_iff in M. rewrite (f_lex_nth f Hdim Hrows j row E), M. reflexivity. Qed.

Lemma lex_same i j a b : nth_error (f_rows f) i = Some a -> nth_error (f_rows f) j = Some b ->
  nth i (f_lex f) 0%nat = nth j (f_lex f) 0%nat <-> same_cell a b.
Proof.
  intros Ea Eb. pose proof (nth_error_In _ _ Ea) as Ia. pose proof (nth_error_In _ _ Eb) as Ib.
  destruct (row_finite_semi_positive a) eqn:Sa, (row_finite_semi_positive b) eqn:Sb.
  - destruct (lex_row i a Ea Sa) as (-> & Va & _). destruct (lex_row j b Eb Sb) as (-> & Vb & _).
    pose proof (number_range _ _ Va). pose proof (number_range _ _ Vb). split.
    + intro E. left. exists (map floor_of a). split; [apply whole_holds; eauto|].
      assert (T : map floor_of a = map floor_of b) by (apply (number_injective (f_nbins f)); auto; lia).
      rewrite T. apply whole_holds; eauto.
    + intros [(t & A & B)|(M & _)]; [|apply semi_positive_iff in M; congruence].
      rewrite (floors_holds _ _ A), (floors_holds _ _ B). reflexivity.
  - destruct (lex_row i a Ea Sa) as (_ & _ & L). rewrite (lex_missing j b Eb) by (apply semi_positive_iff; exact Sb). split; [lia|].
    intros [(t & A & B)|(M & _)]; [rewrite (semi_of_holds _ _ _ A B) in Sa|apply semi_positive_iff in M]; congruence.
  - destruct (lex_row j b Eb Sb) as (_ & _ & L). rewrite (lex_missing i a Ea) by (apply semi_positive_iff; exact Sa). split; [lia|].
    intros [(t & A & B)|(_ & M)]; [rewrite (semi_of_holds _ _ _ A B) in Sa|apply semi_positive_iff in M]; congruence.
  - rewrite (lex_missing i a Ea), (lex_missing j b Eb) by (apply semi_positive_iff; assumption). split; [|reflexivity].
    intros _. right. split; apply semi_positive_iff; assumption.
Qed.
End Cells.

Lemma cell_sum_bin (cell : sample -> bool) v D lex k : length lex = length D ->
  (forall j s, nth_error D j = Some s -> cell s = true <-> nth j lex 0%nat = k) ->
  cell_sum cell v D = bin_sum lex (fun j => nth j (map v D) 0) k.
Proof.
  revert lex. induction D as [|s D IH]; intros [|b lex] L H; cbn in L; try discriminate; [reflexivity|].
  rewrite bin_sum_cons. cbn [cell_sum map nth]. rewrite (IH lex) by (try lia; intros j s' E; exact (H (S j) s' E)).
  f_equal. pose proof (H 0%nat s eq_refl) as C. cbn [nth] in C. destruct (Nat.eqb_spec b k) as [E|E], (cell s); auto.
  - destruct C as [_ C]. specialize (C E). discriminate.
  - destruct C as [C _]. specialize (C eq_refl). contradiction.
Qed.

(** ** The loop with one group *)
Lemma deviation_nonneg sl : 0 <= factors_deviation sl.
Proof.
  assert (M : forall l, (forall v, In v l -> 0 <= v) -> 0 <= mean l).
  { intros l P. unfold mean. pose proof (sumR_nonneg_list l P) as S. destruct l as [|a l]; [cbn in *; unfold Rdiv; lra|].
    apply Rmult_le_pos; [exact S|left; apply Rinv_0_lt_compat, lt_0_INR; cbn; lia]. }
  unfold factors_deviation. apply M. intros v I. apply in_map_iff in I. destruct I as (s & <- & _). apply M.
  intros v I. apply in_map_iff in I. destruct I as (u & <- & _). apply Rabs_pos.
Qed.

Section Single.
Variables (gm : R -> R) (bppf : R -> R -> R -> R) (erfinv : R -> R) (bad al : R).
Variables (g : group) (cfg : settings) (rate : nat -> nat -> R) (D : list sample).
Hypothesis Ha : 0 <= al.
Hypothesis HB : binned_rows [g] D.
Hypothesis HW : Forall (fun s => 0 <= x_w s) D.
Hypothesis HV : visits D <> 0.
Hypothesis HR : forall it i, 0 <= rate it i <= 1.
Hypothesis HS : g_smoother g = bin_values.
Hypothesis HH : c_hier cfg = false \/ g_hier g = true.
Hypothesis Hlog : c_log cfg = false.
Hypothesis Hagg : c_aggregate cfg = true.
Notation y := (map x_y D).
Notation w := (map x_w D).
Notation f := (bind_group D 0 g).
Notation kd := (GBSRegressor al).
Notation calc := (fun i (_ : nat) p => map (estimate_value bad) (group_estimates gm bppf erfinv kd [f] y w i p)).
Notation smooth := (fun i (_ : nat) p => group_smoother gm bppf erfinv bad kd [g] [f] y w i p).
Notation loss := (fun p => kind_loss bad kd y w (p_factors p)).
Notation nf := (new_factors calc smooth (kind_calibration kd [f] w) rate).
Notation lex := (f_lex f).
Notation start scale := {| p_factors := repeat scale (length D); p_exponents := zeros (length D) |}.

Lemma HSall : Forall (fun g => shrinks (g_smoother g)) [g].
Proof. constructor; [rewrite HS; exact values_shrink|constructor]. Qed.
Lemma wn : EstimatorSpec.nonneg w.
Proof. exact (w_nonneg D HW). Qed.
Lemma lex_len : length lex = length D.
Proof. rewrite f_lex_length. cbn. apply map_length. Qed.
Lemma lex_bound b : In b lex -> (b < S (f_finite f))%nat.
Proof. exact (proj1 (proj2 (proj2 (group_facts gm bppf erfinv al [g] rate D HB HR HSall 0 f eq_refl))) b). Qed.

Definition bw (b : nat) : R := bin_weight lex w b.
Definition by_ (b : nat) : R := bin_sum lex (fun j => nth j w 0 * nth j y 0) b.
(** The learned step of a bin whose predictions are [v]. *)
Definition step (it b : nat) (v : R) : R :=
  if f_mnl f && Nat.eqb b (f_finite f) then 0 else rate it 0%nat * ((by_ b - bw b * v) / (bw b * (1 + al) + 1)).

Lemma factor_step s it p v b : s_zero s = false -> length (p_factors p) = length D -> (b < S (f_finite f))%nat ->
  (forall j, (j < length D)%nat -> nth j (p_factors p) 0 = v (nth j lex 0%nat)) ->
  nth b (snd (nf 0%nat f s it p)) 0 = step it b (v b).
Proof.
  intros Z L Hb Hv. unfold new_factors, kind_calibration. cbn [snd]. cbv zeta.
  assert (Pl : per_row lex y /\ per_row lex w /\ per_row lex (p_factors p)).
  { unfold per_row. rewrite !map_length, lex_len. lia. } destruct Pl as (Py & Pw & Pp).
  assert (EST : nth b (map (estimate_value bad) (group_estimates gm bppf erfinv kd [f] y w 0%nat p)) 0 = (by_ b - bw b * v b) / (bw b * (1 + al) + 1)).
  { unfold group_estimates. cbn [nth_error estimates].
    apply nth_error_nth. rewrite nth_error_map, (gbs_value lex y w (p_factors p) al b Py Pw Pp _ wn Ha Hb). cbn [option_map estimate_value].
    f_equal. f_equal. unfold by_, bw, bin_weight.
    rewrite (bin_sum_ext_in lex (fun j => nth j w 0 * (nth j y 0 - nth j (p_factors p) 0)) (fun j => nth j w 0 * nth j y 0 + (- v b) * nth j w 0)).
    - rewrite (bin_sum_plus lex (fun j => nth j w 0 * nth j y 0)), (bin_sum_scal lex (- v b)). ring.
    - intros j J. assert (Jl : (j < length lex)%nat) by (apply nth_error_Some; unfold row_in in J; congruence).
      rewrite Hv by (rewrite <- lex_len; exact Jl). rewrite (nth_error_nth lex j 0%nat J). ring. }
  set (vals := map (estimate_value bad) (group_estimates gm bppf erfinv kd [f] y w 0%nat p)) in *.
  assert (LV : length vals = S (f_finite f)).
  { unfold vals. rewrite map_length. unfold group_estimates. cbn [nth_error estimates]. unfold gbs_parameters. rewrite map_length, seq_length. reflexivity. }
  assert (LM : forall (h : nat -> R), length (map h (seq 0 (f_finite f))) = f_finite f) by (intros; rewrite map_length, seq_length; reflexivity).
  unfold step. destruct (Nat.eq_dec b (f_finite f)) as [->|Nb].
  - rewrite app_nth2 by (rewrite LM; lia). rewrite LM, Nat.sub_diag. cbn [nth]. rewrite Nat.eqb_refl, andb_true_r.
    destruct (f_mnl f); [reflexivity|]. rewrite EST. ring.
  - rewrite app_nth1 by (rewrite LM; lia). rewrite (nth_map_lt _ _ b 0%nat) by (rewrite seq_length; lia). rewrite seq_nth by lia. cbn [plus].
    rewrite Z. rewrite (proj2 (Nat.eqb_neq _ _) Nb), andb_false_r. unfold group_smoother. cbn [nth_error]. rewrite HS. unfold bin_values.
    rewrite (nth_error_nth' _ 0) by (rewrite firstn_length, LV; lia). rewrite nth_firstn_lt by lia. rewrite EST. reflexivity.
Qed.

(** Value of a bin after a number of passes. *)
Fixpoint level (scale : R) (T b : nat) : R :=
  match T with O => scale | S n => level scale n b + step n b (level scale n b) end.

Definition reached (scale : R) (st : state) : Prop :=
  good loss (length D) (loss (start scale)) st /\ (exists s, t_feats st = [s] /\ s_zero s = false /\ (t_iter st <> 0%nat -> s_agg s <> None)) /\ 0 <= t_delta st /\
  forall j, (j < length D)%nat -> nth j (p_factors (t_preds st)) 0 = level scale (t_iter st) (nth j lex 0%nat).

Lemma not_skipped it : skipped cfg f it = false.
Proof. unfold skipped. destruct HH as [->|E]; [reflexivity|]. change (f_hier f) with (g_hier g). rewrite E. apply andb_false_r. Qed.

Lemma reached_next scale st : reached scale st ->
  exists st', iteration cfg [f] calc smooth (kind_calibration kd [f] w) rate loss (loss (start scale)) st = Ok st' /\
    reached scale st' /\ t_iter st' = S (t_iter st).
Proof.
  intros (G & (s & Es & Z & _) & _ & H).
  destruct (start_shaped [g] D HB scale) as (WS & LS).
  destruct (iteration_down cfg [f] calc smooth (kind_calibration kd [f] w) rate loss (start scale) (length D) WS Hlog Hagg
    (gbs_gentle gm bppf erfinv bad al [g] rate D Ha HB HW HV HR HSall) (loss (start scale)) st (start_loss bad al D HW HV scale) G)
    as (st' & E & G' & _).
  exists st'. split; [exact E|].
  assert (K : exists s', t_feats st' = [s'] /\ (s_zero s' = false /\ s_agg s' <> None /\ 0 <= t_delta st') /\ t_iter st' = S (t_iter st) /\
    p_factors (t_preds st') = vadd (p_factors (t_preds st)) (gather (snd (nf 0%nat f s (t_iter st) (t_preds st))) lex)).
  { pose proof E as E0. unfold iteration in E0. rewrite Es in E0. cbn [features_pass] in E0. rewrite not_skipped in E0.
    unfold feature_iteration in E0. rewrite Hagg in E0. cbv zeta in E0.
    destruct (nf 0%nat f s (t_iter st) (t_preds st)) as [un fs] eqn:EN. cbn [snd].
    unfold visit_factors, limit_factors in E0. rewrite Hlog in E0. cbn [andb s_factors] in E0.
    destruct G' as (_ & _ & _ & ND).
    match type of E0 with context [is_diverged ?a ?b] => destruct (is_diverged a b) eqn:DV end.
    - exfalso. match type of E0 with context [Nat.leb 5 ?q] => destruct (Nat.leb 5 q) end; cbn [andb] in E0; [discriminate|].
      match type of E0 with context [remove_preds ?a ?b ?c] => destruct (remove_preds a b c) as [[? ?]|] end; [|discriminate]. injection E0 as E0. rewrite <- E0 in ND. cbn in ND. discriminate.
    - cbn [andb] in E0. injection E0 as <-. cbn. eexists. split; [reflexivity|]. split; [split; [exact Z|split; [discriminate|apply deviation_nonneg]]|]. split; [reflexivity|]. reflexivity. }
  destruct K as (s' & K1 & (K2 & KA & KD) & K3 & K4). split; [|exact K3]. split; [exact G'|]. split; [exists s'; auto|]. split; [exact KD|].
  intros j J. rewrite K4, K3. destruct G as ((L1 & _) & _).
  rewrite nth_vadd by (rewrite gather_length, lex_len, L1; reflexivity).
  rewrite nth_gather by (rewrite lex_len; exact J). rewrite (H j J). cbn [level].
  rewrite (factor_step s (t_iter st) (t_preds st) (level scale (t_iter st)) _ Z L1).
  - reflexivity.
  - apply lex_bound, nth_In. rewrite lex_len. exact J.
  - exact H.
Qed.

Lemma reached_loop scale : forall fuel st st', reached scale st ->
  loop cfg [f] calc smooth (kind_calibration kd [f] w) rate loss fuel (loss (start scale)) st = Some (Ok st') -> reached scale st'.
Proof.
  induction fuel as [|fuel IH]; intros st st' G E; cbn [loop] in E; destruct (continues cfg st); try discriminate.
  1, 3: injection E as E; assert (E' : st' = st) by
    (unfold finish in E; destruct (forallb _ _); [|discriminate]; match type of E with context [(is_diverged ?a ?b && ?c)%bool] => destruct (is_diverged a b && c)%bool end; [discriminate|congruence]);
    rewrite E'; exact G.
  destruct (reached_next scale st G) as (s1 & E1 & G1 & _). rewrite E1 in E. exact (IH s1 st' G1 E).
Qed.

Lemma reached_init scale : reached scale (init_state [f] loss (start scale)).
Proof.
  split; [apply (good_init [f] loss (start scale) (length D)), (start_shaped [g] D HB scale)|]. split.
  - exists (init_fstate f). split; [reflexivity|split; [reflexivity|]]. intro X. contradiction.
  - split; [cbn; lra|]. intros j J. cbn [init_state t_preds t_iter p_factors level]. apply nth_error_nth. apply nth_error_repeat. exact J.
Qed.

(** Training without further criteria makes all passes. *)
Lemma all_passes scale : c_hier cfg = false -> c_minfactor cfg < 0 -> c_minloss cfg < 0 -> c_maxiter cfg <> 0%nat ->
  forall fuel st, reached scale st -> (t_iter st + fuel = c_maxiter cfg)%nat ->
  exists st', loop cfg [f] calc smooth (kind_calibration kd [f] w) rate loss fuel (loss (start scale)) st = Some (Ok st') /\ t_iter st' = c_maxiter cfg.
Proof.
  intros H0 H1 H2 H3. induction fuel as [|fuel IH]; intros st RE N.
  - pose proof RE as ((_ & _ & LO & ND) & (s & Es & _ & SA) & DE & _). rewrite Nat.add_0_r in N.
    assert (CT : continues cfg st = false).
    { unfold continues, check_stop, stop_iterations, veto_hierarchical. rewrite ND, H0, N, Nat.leb_refl, andb_false_r. reflexivity. }
    exists st. split; [|exact N]. cbn [loop]. rewrite CT. unfold finish. rewrite Es. cbn [forallb].
    destruct (s_agg s) as [a|]; [|exfalso; apply SA; congruence]. cbn [andb].
    assert (IV : is_diverged (loss (start scale)) (t_loss st) = false).
    { unfold is_diverged. apply Rltb_false. pose proof (start_loss bad al D HW HV scale) as P. cbv beta in P, LO |- *. lra. }
    cbv beta in IV |- *. rewrite IV. reflexivity.
  - pose proof RE as ((_ & _ & LO & ND) & (s & Es & _ & SA) & DE & _).
    assert (CT : continues cfg st = true).
    { unfold continues, check_stop, stop_iterations, stop_factor_change, stop_loss_change.
      rewrite (proj2 (Nat.leb_gt _ _)) by lia. rewrite (proj2 (Rleb_false _ _)) by lra.
      rewrite (proj2 (Rleb_false _ _)) by (pose proof (Rabs_pos (t_losschange st)); lra). reflexivity. }
    destruct (reached_next scale st RE) as (s1 & E1 & R1 & N1). cbn [loop]. rewrite CT, E1. apply IH; [exact R1|lia].
Qed.

Lemma fit_all_passes : c_hier cfg = false -> c_minfactor cfg < 0 -> c_minloss cfg < 0 -> c_maxiter cfg <> 0%nat ->
  forall scale, kind_scale kd y w = Some scale ->
  exists t, whole_fit gm bppf erfinv bad kd false [g] cfg rate (c_maxiter cfg) D = Trained t /\ o_iterations t = c_maxiter cfg /\ o_scale t = scale.
Proof.
  intros H0 H1 H2 H3 scale E. destruct (all_passes scale H0 H1 H2 H3 (c_maxiter cfg) _ (reached_init scale) eq_refl) as (st & L & N).
  unfold whole_fit. rewrite E. cbv zeta. cbn [kind_offset]. unfold train. cbv zeta. unfold fit_main. cbn [linked_column prior_predictions bind_groups].
  cbv beta in L |- *. rewrite L. eexists. split; [reflexivity|]. split; [exact N|reflexivity].
Qed.

Lemma trained_level fuel t : whole_fit gm bppf erfinv bad kd false [g] cfg rate fuel D = Trained t ->
  length (whole_predict kd false t D) = length D /\
  forall j, (j < length D)%nat -> nth j (whole_predict kd false t D) 0 = level (o_scale t) (o_iterations t) (nth j lex 0%nat).
Proof.
  intro F. unfold whole_fit in F. destruct (kind_scale _ _ _) as [scale|]; [|discriminate]. cbv zeta in F. cbn [kind_offset] in F.
  destruct (train gm bppf erfinv bad kd false [g] cfg rate fuel D scale 0) as [[st|e]|] eqn:E; try discriminate. injection F as <-. cbn [o_scale o_iterations].
  destruct (start_shaped [g] D HB scale) as (W & L). destruct (bind_shaped D [g] (start scale) HB (proj1 L) (proj2 L)) as (_ & Hd & Hwh).
  unfold train in E. cbv zeta in E. cbn [linked_column prior_predictions] in E.
  pose proof (insample_all cfg [f] calc smooth (kind_calibration kd [f] w) rate loss (start scale) (length D) W (loop_per_bin gm bppf erfinv bad kd _ _ _) fuel st E Hagg Hd (fun f Hf _ => Hwh f Hf)) as IA.
  rewrite (same_rows x_bins D [f] (bind_rows D [g])), trained_store in IA by (unfold trained_model; rewrite map_length, combine_length; lia).
  assert (RE : reached scale st).
  { unfold fit_main in E. exact (reached_loop scale fuel _ st (reached_init scale) E). }
  match goal with |- length (whole_predict _ _ ?m _) = _ /\ _ => assert (PE : whole_predict kd false m D = p_factors (t_preds st)) end.
  { unfold whole_predict. cbn [o_scale o_offset o_groups]. unfold cb_predict. cbn [linked_column prior_predictions]. rewrite map_length.
    transitivity (map (kind_output kd) (p_factors (t_preds st))); [exact (f_equal (fun q => map (kind_output kd) (p_factors q)) IA)|]. rewrite map_ext with (g := fun x => x) by reflexivity. apply map_id. }
  rewrite PE.
  destruct RE as (((L1 & _) & _) & _ & _ & H). split; [exact L1|exact H].
Qed.

(** Closed form. *)
Lemma level_mean scale m b : f_mnl f && Nat.eqb b (f_finite f) = false -> m * bw b = by_ b -> 0 <= bw b ->
  forall T, level scale T b = m + (scale - m) * left_over (fun it => rate it 0%nat) al (bw b) T.
Proof.
  intros NB M P. induction T as [|T IH]; cbn [level left_over]; [ring|].
  unfold step. rewrite NB, <- M, IH. assert (0 <= bw b * al) by (apply Rmult_le_pos; auto). field. lra.
Qed.
Lemma level_missing scale b : f_mnl f && Nat.eqb b (f_finite f) = true -> forall T, level scale T b = scale.
Proof. intro NB. induction T as [|T IH]; cbn [level]; [reflexivity|]. unfold step. rewrite NB, IH. ring. Qed.

(** ** In terms of the rows *)
Lemma Hdim1 : (1 <= g_dim g)%nat.
Proof. exact (proj1 (proj2 HB) g (or_introl eq_refl)). Qed.
Lemma rows_len r : In r (f_rows f) -> length r = f_dim f.
Proof.
  intro I. cbn in I |- *. apply in_map_iff in I. destruct I as (s & <- & Is). exact (proj1 HB s 0%nat g Is eq_refl).
Qed.
Lemma rows_whole r x : In r (f_rows f) -> In x r -> whole x.
Proof. intros I X. cbn in I. apply in_map_iff in I. destruct I as (s & <- & Is). exact (proj2 (proj2 HB) s 0%nat x Is X). Qed.
Lemma row_at j s : nth_error D j = Some s -> nth_error (f_rows f) j = Some (x_bins s 0%nat).
Proof. intro E. cbn. rewrite nth_error_map, E. reflexivity. Qed.

Lemma cell_bin j s cell : nth_error D j = Some s -> cell_of D s cell ->
  cell_weight cell D = bw (nth j lex 0%nat) /\ cell_sum cell (fun s => x_w s * x_y s) D = by_ (nth j lex 0%nat).
Proof.
  intros E C.
  assert (K : forall i s', nth_error D i = Some s' -> cell s' = true <-> nth i lex 0%nat = nth j lex 0%nat).
  { intros i s' Ei. rewrite (C s' (nth_error_In _ _ Ei)).
    pose proof (lex_same f Hdim1 rows_len rows_whole j i _ _ (row_at j s E) (row_at i s' Ei)) as LS. split.
    - intro S. symmetry. apply LS. exact S.
    - intro S. apply LS. symmetry. exact S. }
  split; [unfold cell_weight|]; rewrite (cell_sum_bin cell _ D lex (nth j lex 0%nat) lex_len K).
  - reflexivity.
  - unfold by_. apply bin_sum_ext. intros i I. rewrite lex_len in I.
    destruct (nth_error D i) as [s'|] eqn:Ei; [|apply nth_error_None in Ei; lia].
    rewrite (nth_error_nth (map x_w D) i 0 (map_nth_error x_w i D Ei)), (nth_error_nth (map x_y D) i 0 (map_nth_error x_y i D Ei)).
    apply nth_error_nth. exact (map_nth_error (fun s => x_w s * x_y s) i D Ei).
Qed.

Lemma weight_nonneg b : 0 <= bw b.
Proof. apply bin_sum_nonneg. intros j _. apply nonneg_at, wn. Qed.

Theorem learned_mean fuel t j s cell m :
  whole_fit gm bppf erfinv bad kd false [g] cfg rate fuel D = Trained t ->
  nth_error D j = Some s -> cell_of D s cell -> cell_mean cell D m -> g_mnl g = false \/ ~ missing_entry (x_bins s 0%nat) ->
  nth_error (whole_predict kd false t D) j =
    Some (m + (o_scale t - m) * left_over (fun it => rate it 0%nat) al (cell_weight cell D) (o_iterations t)).
Proof.
  intros F E C M NM. destruct (cell_bin j s cell E C) as (EW & EY).
  assert (J : (j < length D)%nat) by (apply nth_error_Some; congruence).
  destruct (trained_level fuel t F) as (L & H). rewrite (nth_error_nth' _ 0) by lia. f_equal. rewrite (H j J), EW.
  unfold cell_mean in M. rewrite EW, EY in M. apply level_mean; [|exact M|apply weight_nonneg].
  change (f_mnl f) with (g_mnl g). destruct NM as [->|NM]; [reflexivity|].
  destruct (row_finite_semi_positive (x_bins s 0%nat)) eqn:S; [|apply semi_positive_iff in S; contradiction].
  destruct (lex_row f Hdim1 rows_len rows_whole j _ (row_at j s E) S) as (_ & _ & LT). rewrite (proj2 (Nat.eqb_neq _ _)) by lia. apply andb_false_r.
Qed.

Theorem missing_baseline fuel t j s :
  whole_fit gm bppf erfinv bad kd false [g] cfg rate fuel D = Trained t ->
  nth_error D j = Some s -> g_mnl g = true -> missing_entry (x_bins s 0%nat) -> nth_error (whole_predict kd false t D) j = Some (o_scale t).
Proof.
  intros F E MN M. assert (J : (j < length D)%nat) by (apply nth_error_Some; congruence).
  destruct (trained_level fuel t F) as (L & H). rewrite (nth_error_nth' _ 0) by lia. f_equal. rewrite (H j J).
  apply level_missing. change (f_mnl f) with (g_mnl g). rewrite MN, (lex_missing f Hdim1 rows_len j _ (row_at j s E) M), Nat.eqb_refl. reflexivity.
Qed.
End Single.

(** ** The part left over *)
Lemma share_bounds al W : 0 <= al -> 0 <= W -> 0 <= W / (W * (1 + al) + 1) < 1.
Proof.
  intros A P. assert (0 <= W * al) by (apply Rmult_le_pos; auto). split.
  - apply Rmult_le_pos; [exact P|left; apply Rinv_0_lt_compat; lra].
  - apply (Rmult_lt_reg_r (W * (1 + al) + 1)); [lra|]. unfold Rdiv. rewrite Rmult_assoc, Rinv_l by lra. lra.
Qed.

Lemma left_over_bounds rate al W : (forall it, 0 <= rate it <= 1) -> 0 <= al -> 0 <= W -> forall T, 0 <= left_over rate al W T <= 1.
Proof.
  intros Hr A P. destruct (share_bounds al W A P) as (S1 & S2). induction T as [|T (I1 & I2)]; cbn [left_over]; [lra|].
  specialize (Hr T). set (c := W / (W * (1 + al) + 1)) in *. clearbody c.
  assert (0 <= rate T * c) by (apply Rmult_le_pos; lra). assert (rate T * c <= c) by nra. split; [apply Rmult_le_pos; lra|]. nra.
Qed.

Lemma left_over_geometric rate al W rho : (forall it, rho <= rate it <= 1) -> 0 <= rho -> 0 <= al -> 0 <= W ->
  forall T, left_over rate al W T <= (1 - rho * (W / (W * (1 + al) + 1))) ^ T.
Proof.
  intros Hr Q A P. destruct (share_bounds al W A P) as (S1 & S2).
  assert (Hr' : forall it, 0 <= rate it <= 1) by (intro it; specialize (Hr it); lra).
  induction T as [|T IH]; cbn [left_over pow]; [lra|]. pose proof (left_over_bounds rate al W Hr' A P T) as (L1 & L2).
  specialize (Hr T). set (c := W / (W * (1 + al) + 1)) in *. clearbody c. rewrite (Rmult_comm (1 - rho * c)).
  assert (rho * c <= rate T * c) by (apply Rmult_le_compat_r; lra). assert (rate T * c <= 1 * c) by (apply Rmult_le_compat_r; lra).
  apply Rmult_le_compat; lra.
Qed.

Lemma left_over_zero rate al T : left_over rate al 0 T = 1.
Proof. induction T as [|T IH]; cbn [left_over]; [reflexivity|]. rewrite IH. unfold Rdiv. ring. Qed.

Lemma left_over_vanishes rate al W rho eps : (forall it, rho <= rate it <= 1) -> 0 < rho -> 0 <= al -> 0 < W -> 0 < eps ->
  exists T0, forall T, (T0 <= T)%nat -> 0 <= left_over rate al W T <= eps.
Proof.
  intros Hr Q A P E. destruct (share_bounds al W A ltac:(lra)) as (S1 & S2).
  assert (S0 : 0 < W / (W * (1 + al) + 1)).
  { apply Rmult_lt_0_compat; [exact P|]. apply Rinv_0_lt_compat. assert (0 <= W * al) by (apply Rmult_le_pos; lra). lra. }
  assert (R1 : rho <= 1) by (specialize (Hr 0%nat); lra).
  pose proof (left_over_geometric rate al W rho Hr ltac:(lra) A ltac:(lra)) as G.
  pose proof (left_over_bounds rate al W (fun it => conj (Rle_trans _ _ _ (Rlt_le _ _ Q) (proj1 (Hr it))) (proj2 (Hr it))) A ltac:(lra)) as B.
  set (c := W / (W * (1 + al) + 1)) in *. clearbody c.
  assert (0 < rho * c) by (apply Rmult_lt_0_compat; lra). assert (rho * c < 1) by nra.
  destruct (pow_lt_1_zero (1 - rho * c) ltac:(rewrite Rabs_pos_eq; lra) eps E) as (T0 & HT0). exists T0. intros T HT.
  specialize (HT0 T HT). rewrite Rabs_pos_eq in HT0 by (apply pow_le; lra). specialize (G T). specialize (B T). lra.
Qed.

(** ** Consequences *)
Lemma cell_nonneg D cell : Forall (fun s => 0 <= x_w s) D -> 0 <= cell_weight cell D.
Proof.
  unfold cell_weight. induction 1 as [|s r P _ IH]; cbn [cell_sum]; [lra|]. destruct (cell s); lra.
Qed.
Lemma empty_cell D cell m : Forall (fun s => 0 <= x_w s) D -> cell_weight cell D = 0 -> cell_mean cell D m.
Proof.
  intros HW Z. unfold cell_mean. rewrite Z, Rmult_0_r. unfold cell_weight in Z. symmetry. revert Z.
  induction HW as [|s r P Pr IH]; cbn [cell_sum]; intro Z; [reflexivity|].
  pose proof (cell_nonneg r cell Pr) as N. unfold cell_weight in N.
  destruct (cell s); [|rewrite IH by lra; ring]. assert (X : x_w s = 0) by lra. rewrite IH by lra. rewrite X. ring.
Qed.

Section Consequences.
Variables (gm : R -> R) (bppf : R -> R -> R -> R) (erfinv : R -> R) (bad al : R).
Variables (g : group) (rate : nat -> nat -> R) (D : list sample).
Hypothesis Ha : 0 <= al.
Hypothesis HB : binned_rows [g] D.
Hypothesis HW : Forall (fun s => 0 <= x_w s) D.
Hypothesis HV : visits D <> 0.
Hypothesis HS : g_smoother g = bin_values.
Notation kd := (GBSRegressor al).

Theorem learned_between cfg : (forall it i, 0 <= rate it i <= 1) -> c_hier cfg = false \/ g_hier g = true ->
  c_log cfg = false -> c_aggregate cfg = true -> forall fuel t j s cell m p,
  whole_fit gm bppf erfinv bad kd false [g] cfg rate fuel D = Trained t ->
  nth_error D j = Some s -> cell_of D s cell -> cell_mean cell D m ->
  nth_error (whole_predict kd false t D) j = Some p ->
  between (o_scale t) m p /\ (cell_weight cell D = 0 -> p = o_scale t).
Proof.
  intros HR HH HL HA fuel t j s cell m p F E C M P.
  destruct (g_mnl g && negb (row_finite_semi_positive (x_bins s 0%nat)))%bool eqn:Q.
  - apply andb_prop in Q. destruct Q as [Q1 Q2]. apply negb_true_iff in Q2. apply semi_positive_iff in Q2.
    rewrite (missing_baseline gm bppf erfinv bad al g cfg rate D Ha HB HW HV HR HS HH HL HA fuel t j s F E Q1 Q2) in P. injection P as <-.
    split; [|reflexivity]. unfold between, Rmin, Rmax. destruct (Rle_dec (o_scale t) m); lra.
  - assert (NM : g_mnl g = false \/ ~ missing_entry (x_bins s 0%nat)).
    { apply andb_false_iff in Q. destruct Q as [Q|Q]; [left; exact Q|right]. apply negb_false_iff in Q. intro X. apply semi_positive_iff in X. congruence. }
    assert (K : forall m, cell_mean cell D m -> p = m + (o_scale t - m) * left_over (fun it => rate it 0%nat) al (cell_weight cell D) (o_iterations t)).
    { intros m' M'. pose proof (learned_mean gm bppf erfinv bad al g cfg rate D Ha HB HW HV HR HS HH HL HA fuel t j s cell m' F E C M' NM) as X. congruence. }
    split.
    + rewrite (K m M). pose proof (left_over_bounds (fun it => rate it 0%nat) al (cell_weight cell D) (fun it => HR it 0%nat) Ha (cell_nonneg D cell HW) (o_iterations t)) as B.
      set (q := left_over _ _ _ _) in *. clearbody q. unfold between, Rmin, Rmax. destruct (Rle_dec (o_scale t) m) as [L|L]; [|apply Rnot_le_lt in L]; split; nra.
    + intro Z. rewrite (K (o_scale t) (empty_cell D cell _ HW Z)). ring.
Qed.

Theorem learned_limit rho : 0 < rho -> (forall it i, rho <= rate it i <= 1) -> forall j s cell m eps,
  nth_error D j = Some s -> cell_of D s cell -> cell_mean cell D m -> 0 < cell_weight cell D ->
  g_mnl g = false \/ ~ missing_entry (x_bins s 0%nat) -> 0 < eps ->
  exists enough, forall cfg fuel t p, c_hier cfg = false \/ g_hier g = true -> c_log cfg = false -> c_aggregate cfg = true ->
    whole_fit gm bppf erfinv bad kd false [g] cfg rate fuel D = Trained t -> (enough <= o_iterations t)%nat ->
    nth_error (whole_predict kd false t D) j = Some p -> Rabs (p - m) <= eps.
Proof.
  intros Hrho HR j s cell m eps E C M PW NM He.
  assert (HR' : forall it i, 0 <= rate it i <= 1) by (intros it i; specialize (HR it i); lra).
  destruct (kind_scale kd (map x_y D) (map x_w D)) as [scale|] eqn:KS.
  2:{ exists 0%nat. intros cfg fuel t p _ _ _ F. unfold whole_fit in F. rewrite KS in F. discriminate. }
  assert (A1 : 0 < 1 + Rabs (scale - m)) by (pose proof (Rabs_pos (scale - m)); lra).
  destruct (left_over_vanishes (fun it => rate it 0%nat) al (cell_weight cell D) rho (eps / (1 + Rabs (scale - m)))
    (fun it => HR it 0%nat) Hrho Ha PW ltac:(apply Rmult_lt_0_compat; [exact He|apply Rinv_0_lt_compat; exact A1])) as (T0 & HT).
  exists T0. intros cfg fuel t p HH HL HA F HI P.
  assert (SC : o_scale t = scale).
  { unfold whole_fit in F. rewrite KS in F. cbv zeta in F. destruct (train _ _ _ _ _ _ _ _ _ _ _ _ _) as [[st|e]|]; try discriminate. injection F as <-. reflexivity. }
  rewrite (learned_mean gm bppf erfinv bad al g cfg rate D Ha HB HW HV HR' HS HH HL HA fuel t j s cell m F E C M NM) in P. injection P as <-.
  rewrite SC. specialize (HT (o_iterations t) HI). set (q := left_over _ _ _ _) in *. clearbody q.
  replace (m + (scale - m) * q - m) with ((scale - m) * q) by ring. rewrite Rabs_mult, (Rabs_pos_eq q) by lra.
  set (a := Rabs (scale - m)) in *. assert (a0 : 0 <= a) by apply Rabs_pos. clearbody a.
  apply Rle_trans with ((1 + a) * (eps / (1 + a))); [|right; field; lra].
  apply Rmult_le_compat; lra.
Qed.
End Consequences.
