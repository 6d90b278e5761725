(** The loss that training reports is that of the predictions on the training data. *)
From Coq Require Import ZArith NArith QArith Qreals List Bool Reals Lia Lra.
From Verif.Proofs Require Import TrainFacts TrainHistory LinkFacts EstimatorFacts PredictFacts NeutralFacts PriceFacts PipeMonotone.
From Verif.Model Require Import Num LexBins Train Predict Link Estimators Gbs Quantile LossModes Dispersion Price WholeFit BinFit PriceFit.
From Verif.Spec Require Import LexSpec PriceSpec TrainSpec PredictSpec DataSpec InsampleSpec.
Import ListNotations.
Local Open Scope R_scope.

Lemma predict_plen N ms : forall i p X, plen N p -> length X = N -> plen N (predict_from i ms p X).
Proof.
  induction ms as [|m ms IH]; intros i p X Hp HX; cbn [predict_from]; [exact Hp|]. apply IH; [|exact HX]. apply plen_add; [exact Hp|].
  rewrite predict_factors_rowpred, !map_length. exact HX.
Qed.

Section Generic.
Variable cfg : settings.
Variable features : list feature.
Variable calc : nat -> nat -> preds -> list R.
Variable smooth : nat -> nat -> preds -> list R -> nat -> option R.
Variable calib : nat -> list R -> list R.
Variable rate : nat -> nat -> R.
Variable loss : preds -> R.
Variable prior : preds.
Notation hist := (reached cfg features calc smooth calib rate loss prior).
Notation fit := (fit_main cfg features calc smooth calib rate loss).

Lemma reached_loss st : hist st -> t_isdiv st = false -> t_loss st = loss (t_preds st).
Proof.
  induction 1 as [|st st' H IH C E]; intro D; [reflexivity|].
  destruct (iteration_ok _ _ _ _ _ _ _ _ _ _ E) as (sl & p & F & _ & L & _ & _ & _ & _ & _ & R).
  rewrite D in R. injection R as R1 R2. rewrite L, R2. reflexivity.
Qed.
Lemma final_loss fuel st : fit fuel prior = Some (Ok st) -> t_loss st = loss (t_preds st).
Proof.
  intro E. destruct (fit_reached cfg features calc smooth calib rate loss prior fuel st E) as (H & C & _). apply reached_loss; [exact H|].
  unfold continues in C. apply orb_false_iff in C. apply C.
Qed.

Variable N : nat.
Hypothesis Hw : well_shaped N features prior.
Hypothesis Ho : TrainSpec.one_per_bin features calc calib.

Lemma insample_all fuel st : fit fuel prior = Some (Ok st) -> c_aggregate cfg = true ->
  (forall f, In f features -> (1 <= f_dim f)%nat) -> (forall f, In f features -> f_dim f = 1%nat -> whole_rows (f_rows f)) ->
  predict_extended (trained_model features st) prior (training_data features N) = t_preds st.
Proof.
  intros E A Hd Hwh. pose proof (insample cfg features calc smooth calib rate loss prior N Hw Ho fuel st E (or_introl A) Hd Hwh) as I.
  destruct (fit_reached cfg features calc smooth calib rate loss prior fuel st E) as (R & _ & _).
  pose proof (reached_inv cfg features calc smooth calib rate loss prior N Hw Ho st R) as [V1 V2].
  assert (LX : length (training_data features N) = N) by (unfold training_data; rewrite map_length, seq_length; auto).
  destruct Hw as (W1 & W2 & W3).
  assert (P : plen N (predict_extended (trained_model features st) prior (training_data features N))).
  { apply predict_plen; [split; congruence|exact LX]. }
  destruct P as [P1 P2]. destruct V2 as [Q1 Q2].
  destruct (predict_extended (trained_model features st) prior (training_data features N)) as [a b] eqn:EP. destruct (t_preds st) as [c d].
  cbn [p_factors p_exponents] in *. f_equal.
  - apply (nth_ext _ _ 0 0); [congruence|]. intros j Hj. apply (I false j). lia.
  - apply (nth_ext _ _ 0 0); [congruence|]. intros j Hj. apply (I true j). lia.
Qed.
End Generic.

(** The rows of the features are the bin numbers of the data. *)
Definition rows_of {A} (bins : A -> nat -> list fnum) (D : list A) (features : list feature) : Prop :=
  forall m f, nth_error features m = Some f -> f_rows f = map (fun r => bins r m) D.
Lemma same_rows {A} (bins : A -> nat -> list fnum) D features : rows_of bins D features ->
  forall ms, (length ms <= length features)%nat -> forall prior,
  predict_extended ms prior (training_data features (length D)) = predict_extended ms prior (map bins D).
Proof.
  intros H ms L prior. unfold predict_extended.
  assert (G : forall ms i p, (i + length ms <= length features)%nat ->
    predict_from i ms p (training_data features (length D)) = predict_from i ms p (map bins D)).
  { clear ms L prior. induction ms as [|m ms IH]; intros i p Hi; [reflexivity|]. cbn [predict_from length] in *.
    assert (E : map (fun x : datarow => x i) (training_data features (length D)) = map (fun x : datarow => x i) (map bins D)).
    { unfold training_data. rewrite !map_map. unfold training_row.
      destruct (nth_error features i) as [f|] eqn:Ef; [|apply nth_error_None in Ef; lia].
      rewrite (H i f Ef). apply (nth_ext _ _ [] []); [rewrite !map_length, seq_length; reflexivity|].
      intros j Hj. rewrite map_length, seq_length in Hj.
      rewrite (nth_indep _ [] (nth 0 (map (fun r => bins r i) D) [])) by (rewrite map_length, seq_length; exact Hj).
      rewrite (map_nth (fun j => nth j (map (fun r => bins r i) D) [])), seq_nth by exact Hj. reflexivity. }
    match goal with |- predict_from _ _ (add_preds _ _ (predict_factors _ ?u)) _ = predict_from _ _ (add_preds _ _ (predict_factors _ ?v)) _ => replace u with v by (symmetry; exact E) end.
    apply IH. lia. }
  apply G. lia.
Qed.
Lemma trained_store fl st : trained_model fl st = map2 store fl (t_feats st).
Proof.
  unfold trained_model. generalize (t_feats st). induction fl as [|f fl IH]; intros [|s sl]; cbn [combine map map2]; try reflexivity. f_equal; auto.
Qed.

Lemma fitted_insample {A} (bins : A -> nat -> list fnum) (D : list A) cfg features calc smooth calib rate loss prior fuel st :
  rows_of bins D features -> well_shaped (length D) features prior -> TrainSpec.one_per_bin features calc calib ->
  fit_main cfg features calc smooth calib rate loss fuel prior = Some (Ok st) -> c_aggregate cfg = true ->
  (forall f, In f features -> (1 <= f_dim f)%nat) -> (forall f, In f features -> whole_rows (f_rows f)) ->
  t_loss st = loss (predict_extended (map2 store features (t_feats st)) prior (map bins D)).
Proof.
  intros R W O E Ag Hd Hwh. rewrite (final_loss _ _ _ _ _ _ _ _ _ _ E). f_equal.
  rewrite <- trained_store, <- (same_rows bins D features R).
  - symmetry. exact (insample_all cfg features calc smooth calib rate loss prior (length D) W O fuel st E Ag Hd (fun f Hf _ => Hwh f Hf)).
  - unfold trained_model. rewrite map_length, combine_length. lia.
Qed.

(** ** Bin by bin estimators *)
Lemma linked_length k prior D : length (prior_predictions 0 0 (linked_column k prior D) (length D)) = length D.
Proof. unfold linked_column, prior_predictions, linked_prior. destruct prior; [rewrite !map_length; reflexivity|apply repeat_length]. Qed.
Lemma prior_length k prior D s o : length (prior_predictions s o (linked_column k prior D) (length D)) = length D.
Proof. unfold linked_column, prior_predictions, linked_prior. destruct prior; [rewrite !map_length; reflexivity|apply repeat_length]. Qed.
Lemma zeros_length n : length (zeros n) = n.
Proof. apply repeat_length. Qed.

Lemma bind_rows D gs : rows_of x_bins D (bind_groups D 0 gs).
Proof. intros m f H. destruct (bound_feature _ _ _ _ _ H) as (g & _ & ->). reflexivity. Qed.
Lemma bind_shaped D gs p : binned_rows gs D -> length (p_factors p) = length D -> length (p_exponents p) = length D ->
  well_shaped (length D) (bind_groups D 0 gs) p /\ (forall f, In f (bind_groups D 0 gs) -> (1 <= f_dim f)%nat) /\
  (forall f, In f (bind_groups D 0 gs) -> whole_rows (f_rows f)).
Proof.
  intros (B1 & B2 & B3) L1 L2.
  assert (G : forall f, In f (bind_groups D 0 gs) -> exists m g, nth_error gs m = Some g /\ f = bind_group D m g).
  { intros f Hf. apply In_nth_error in Hf. destruct Hf as (m & Hm). destruct (bound_feature _ _ _ _ _ Hm) as (g & Hg & ->). exists m, g. auto. }
  split; [split; [exact L1|split; [exact L2|]]|split].
  - intros f Hf. destruct (G f Hf) as (m & g & Hg & ->). cbn [bind_group f_rows f_dim]. split; [apply map_length|].
    intros row Hr. apply in_map_iff in Hr. destruct Hr as (s & <- & Hs). exact (B1 s m g Hs Hg).
  - intros f Hf. destruct (G f Hf) as (m & g & Hg & ->). cbn. apply B2. eapply nth_error_In; eauto.
  - intros f Hf. destruct (G f Hf) as (m & g & Hg & ->). intros row x Hr Hx. cbn in Hr. apply in_map_iff in Hr. destruct Hr as (s & <- & Hs). exact (B3 s m x Hs Hx).
Qed.

Lemma squares_sum D : forall P, length P = length D ->
  sumR (map2 Rmult (map2 (fun p v => (p - v) * (p - v)) P (map x_y D)) (map x_w D)) = squares D P.
Proof.
  induction D as [|s D IH]; intros [|p P] L; cbn [map map2 sumR squares]; try reflexivity; try discriminate. rewrite IH by (injection L as L; exact L). ring.
Qed.
Lemma weights_sum D : sumR (map x_w D) = total_weight D.
Proof. induction D as [|s D IH]; cbn; [reflexivity|]. rewrite IH. reflexivity. Qed.
Lemma visits_sum D : sumR (map2 Rmult (map (fun v => if Reqb v 0 then 0 else 1) (map x_y D)) (map x_w D)) = visits D.
Proof.
  induction D as [|s D IH]; cbn [map map2 sumR visits]; [reflexivity|]. rewrite IH. f_equal. unfold Reqb. destruct (Req_EM_T (x_y s) 0); ring.
Qed.
Lemma gbs_squares D : forall P, length P = length D ->
  sumR (map2 Rmult (map x_w D) (map2 (fun p v => (p - v) ^ 2) P (map x_y D))) = squares D P.
Proof.
  induction D as [|s D IH]; intros [|p P] L; cbn [map map2 sumR squares]; try reflexivity; try discriminate. rewrite IH by (injection L as L; exact L). reflexivity.
Qed.

Lemma whole_insample gm bppf erfinv bad k prior gs cfg rate fuel D t : c_aggregate cfg = true -> binned_rows gs D ->
  whole_fit gm bppf erfinv bad k prior gs cfg rate fuel D = Trained t ->
  length (whole_predict k prior t D) = length D /\
  (match k with GBSRegressor _ => visits D <> 0 | LocPoissonRegressor => Forall (fun v => 0 < v) (whole_predict k prior t D) | _ => True end ->
   o_loss t = mean_deviation k D (whole_predict k prior t D)).
Proof.
  intros Ag B F. unfold whole_fit in F. destruct (kind_scale k (map x_y D) (map x_w D)) as [scale|] eqn:Es; [|discriminate]. cbv zeta in F.
  set (offset := kind_offset k scale (map x_prior D) (map x_w D)) in F.
  destruct (train gm bppf erfinv bad k prior gs cfg rate fuel D scale offset) as [[st|e]|] eqn:Et; try discriminate. injection F as <-.
  unfold train in Et. cbv zeta in Et.
  match type of Et with fit_main _ _ _ _ _ _ _ _ ?p = _ => set (p0 := p) in * end.
  destruct (bind_shaped D gs p0 B) as (W & Hd & Hwh); [apply prior_length|apply zeros_length|].
  pose proof (fitted_insample x_bins D _ _ _ _ _ _ _ _ _ _ (bind_rows D gs) W (loop_per_bin gm bppf erfinv bad k _ _ _) Et Ag Hd Hwh) as L.
  cbn beta in L. unfold whole_predict. cbn [o_loss o_scale o_offset o_groups]. unfold cb_predict. replace (@length datarow (map x_bins D)) with (length D) by (symmetry; apply map_length).
  fold p0. rewrite L. set (P := p_factors (predict_extended (map2 store (bind_groups D 0 gs) (t_feats st)) p0 (map x_bins D))).
  assert (LP : length P = length D).
  { unfold P. rewrite <- trained_store, <- (same_rows x_bins D _ (bind_rows D gs)) by (unfold trained_model; rewrite map_length, combine_length; lia).
    rewrite (insample_all _ _ _ _ _ _ _ _ (length D) W (loop_per_bin gm bppf erfinv bad k _ _ _) fuel st Et Ag Hd (fun f Hf _ => Hwh f Hf)).
    destruct (fit_reached _ _ _ _ _ _ _ _ _ _ Et) as (R & _ & _).
    apply (reached_inv _ _ _ _ _ _ _ _ (length D) W (loop_per_bin gm bppf erfinv bad k _ _ _) st R). }
  assert (LU : length (map (unlink_func (kind_link k)) P) = length D) by (rewrite map_length; exact LP).
  split; [rewrite map_length; exact LP|]. intro Hv. unfold kind_loss, mean_deviation. cbv zeta.
  destruct k; unfold squared_loss; try (rewrite squares_sum, weights_sum by exact LU; reflexivity).
  { rewrite squares_sum, weights_sum by exact LU. apply f_equal2; [|reflexivity]. apply f_equal.
    apply map_ext_in. intros v I. rewrite Forall_forall in Hv. specialize (Hv _ (in_map _ _ _ I)). cbn in Hv |- *.
    destruct (Rltb 0 v); [reflexivity|lra]. }
  unfold gbs_loss. cbv zeta. rewrite visits_sum, gbs_squares by exact LU. rewrite (proj2 (Reqb_false_iff _ _)) by exact Hv. reflexivity.
Qed.

(** ** Estimators on rows of any kind *)
Section Rows.
Variable row : Type.
Variable sample_of : row -> sample.
Notation bins := (fun r => x_bins (sample_of r)).
Variable weight : row -> R.
Variable estimate : nat -> list (row * R) -> R * R.
Variable loss : list (row * R) -> R.
Variable start : row -> R.
Variable gs : list group.
Variable cfg : settings.
Variable rate : nat -> nat -> R.

Lemma bound_row D l : forall i m f, nth_error (bind_row_groups row bins D i l) m = Some f ->
  exists g, nth_error l m = Some g /\ f = bind_row_group row bins D (i + m) g.
Proof.
  induction l as [|g l IH]; intros i [|m] f H; cbn [bind_row_groups nth_error] in *; try discriminate.
  - injection H as <-. exists g. rewrite Nat.add_0_r. auto.
  - destruct (IH (S i) m f H) as (g' & A & B). exists g'. split; auto. rewrite B. f_equal. lia.
Qed.
Lemma row_fit_insample scale offset fuel D t : c_aggregate cfg = true -> binned_rows gs (map sample_of D) ->
  bin_fit row bins weight estimate loss start gs cfg rate scale offset fuel D = Trained t ->
  o_scale t = scale /\ o_offset t = offset /\
  let P := p_factors (predict_extended (o_groups t) {| p_factors := map start D; p_exponents := zeros (length D) |} (map bins D)) in
  length P = length D /\ o_loss t = loss (combine D P).
Proof.
  intros Ag (B1 & B2 & B3) F. unfold bin_fit in F.
  destruct (bin_train row bins weight estimate loss start gs cfg rate fuel D) as [[st|e]|] eqn:Et; try discriminate. injection F as <-.
  cbn [o_scale o_offset o_groups o_loss]. split; [reflexivity|]. split; [reflexivity|]. cbv zeta.
  unfold bin_train in Et. cbv zeta in Et.
  match type of Et with fit_main _ _ _ _ _ _ _ _ ?p = _ => set (p0 := p) in * end.
  set (fl := bind_row_groups row bins D 0 gs) in *.
  assert (G : forall f, In f fl -> exists m g, nth_error gs m = Some g /\ f = bind_row_group row bins D m g).
  { intros f Hf. apply In_nth_error in Hf. destruct Hf as (m & Hm). destruct (bound_row _ _ _ _ _ Hm) as (g & Hg & ->). exists m, g. auto. }
  assert (W : well_shaped (length D) fl p0).
  { split; [apply map_length|]. split; [apply zeros_length|]. intros f Hf. destruct (G f Hf) as (m & g & Hg & ->). cbn [bind_row_group f_rows f_dim]. split; [apply map_length|].
    intros x Hr. apply in_map_iff in Hr. destruct Hr as (s & <- & Hs). exact (B1 (sample_of s) m g (in_map _ _ _ Hs) Hg). }
  assert (Hd : forall f, In f fl -> (1 <= f_dim f)%nat).
  { intros f Hf. destruct (G f Hf) as (m & g & Hg & ->). cbn. apply B2. eapply nth_error_In; eauto. }
  assert (Hwh : forall f, In f fl -> whole_rows (f_rows f)).
  { intros f Hf. destruct (G f Hf) as (m & g & Hg & ->). intros r x Hr Hx. cbn in Hr. apply in_map_iff in Hr. destruct Hr as (s & <- & Hs). exact (B3 (sample_of s) m x (in_map _ _ _ Hs) Hx). }
  assert (Ho : TrainSpec.one_per_bin fl (fun i it p => map fst (bin_estimates row estimate fl D i it p)) (fun _ f => f)).
  { split; [|reflexivity]. intros i f it p Hi. unfold bin_estimates. rewrite Hi, !map_length. apply seq_length. }
  assert (Ro : rows_of bins D fl).
  { intros m f H. destruct (bound_row _ _ _ _ _ H) as (g & _ & ->). reflexivity. }
  pose proof (fitted_insample bins D _ _ _ _ _ _ _ _ _ _ Ro W Ho Et Ag Hd Hwh) as L. cbn beta in L. split; [|exact L].
  rewrite <- trained_store, <- (same_rows bins D _ Ro) by (unfold trained_model; rewrite map_length, combine_length; lia).
  apply predict_plen; [|unfold training_data; rewrite map_length; apply seq_length]. split; apply W.
Qed.
End Rows.

Lemma combine_pred {A} (l : link) : forall (D : list A) (P : list R), length P = length D ->
  map (fun e => unlink_func l (snd e)) (combine D P) = map (unlink_func l) P.
Proof. induction D as [|s D IH]; intros [|p P] L; cbn; try reflexivity; try discriminate. f_equal. apply IH. injection L as L. exact L. Qed.
Lemma combine_fst_map {A B} (g : A -> B) : forall (D : list A) (P : list R), length P = length D -> map (fun e => g (fst e)) (combine D P) = map g D.
Proof. induction D as [|s D IH]; intros [|p P] L; cbn; try reflexivity; try discriminate. f_equal. apply IH. injection L as L. exact L. Qed.

Lemma mode_starts m prior scale offset D : map (mode_start m prior scale offset) D =
  prior_predictions scale offset (if prior then Some (linked_prior (mode_link m) (map x_prior D)) else None) (length D).
Proof.
  unfold mode_start, prior_predictions, linked_prior. destruct prior; [rewrite !map_map; reflexivity|].
  induction D; cbn; [reflexivity|]. f_equal. assumption.
Qed.
Lemma mode_insample sort minimize bppf erfinv reorder bad m prior gs cfg rate fuel D t : c_aggregate cfg = true -> binned_rows gs D ->
  mode_fit sort minimize bppf erfinv reorder bad m prior gs cfg rate fuel D = Trained t ->
  length (mode_predict m prior t D) = length D /\
  forall l, mode_costs m (mode_predict m prior t D) (map x_y D) (map x_w D) = Some l -> o_loss t = l.
Proof.
  intros Ag B F. unfold mode_fit in F. destruct (mode_scale sort m D) as [scale|]; [|discriminate]. cbv zeta in F.
  set (offset := prior_offset _ _ _ _) in F.
  assert (B' : binned_rows gs (map (fun s => s) D)) by (rewrite map_id; exact B).
  destruct (row_fit_insample sample (fun s => s) _ _ _ _ gs cfg rate _ _ _ _ _ Ag B' F) as (E1 & E2 & LP & EL).
  unfold mode_predict, cb_predict. rewrite E1, E2.
  replace (@length datarow (map x_bins D)) with (length D) by (symmetry; apply map_length). rewrite <- mode_starts.
  change (map (fun r => x_bins r) D) with (map x_bins D) in *.
  set (P := p_factors _) in *. split; [rewrite map_length; exact LP|]. intros l Hl. rewrite EL. unfold mode_loss. cbv zeta. unfold loss_rows.
  rewrite !map_map. cbn [s_pred s_y s_w]. rewrite combine_pred by exact LP. rewrite (combine_fst_map x_y), (combine_fst_map x_w) by exact LP. rewrite Hl. reflexivity.
Qed.

Lemma dispersion_insample lgamma gamma bayes n_steps prior gs cfg rate fuel (D : list mean_row) t : c_aggregate cfg = true -> binned_rows gs (map fst D) ->
  dispersion_fit lgamma gamma bayes n_steps prior gs cfg rate fuel D = Trained t ->
  length (dispersion_predict prior t (map fst D)) = length D /\
  o_loss t = loss_nbinom_c lgamma (map (fun e => (x_y (fst (fst e)), snd (fst e), snd e)) (combine D (dispersion_predict prior t (map fst D)))) gamma.
Proof.
  intros Ag B F. unfold dispersion_fit in F.
  destruct (row_fit_insample mean_row fst _ _ _ _ gs cfg rate _ _ _ _ _ Ag B F) as (E1 & E2 & LP & EL).
  unfold dispersion_predict, cb_predict. rewrite E1, E2.
  replace (@length datarow (map x_bins (map fst D))) with (length D) by (symmetry; rewrite !map_length; reflexivity).
  assert (St : map (fun r : mean_row => dispersion_start prior (fst r)) D =
    prior_predictions 0 0 (if prior then Some (map (fun s => linked_dispersion (x_prior s)) (map fst D)) else None) (length D)).
  { unfold dispersion_start, prior_predictions. destruct prior.
    - rewrite !map_map. apply map_ext. intro r. destruct (linked_dispersion (x_prior (fst r))); [lra|reflexivity].
    - clear. induction D; cbn; [reflexivity|]. f_equal. assumption. }
  rewrite St in LP, EL. 
  match goal with |- context [predict_extended (o_groups t) _ ?X] => replace X with (map (fun r : mean_row => x_bins (fst r)) D) by (symmetry; apply map_map) end.
  set (P := p_factors _) in *. split; [rewrite map_length; exact LP|]. rewrite EL. unfold dispersion_loss. f_equal.
  clear - LP. revert LP. generalize P. clear P. intro P. generalize D. clear D. intro D. revert P.
  induction D as [|r D IH]; intros [|p P] L; cbn [combine map]; try reflexivity; try discriminate. f_equal. apply IH. injection L as L. exact L.
Qed.

(** ** The price model *)
Lemma loop_curvatures step : PriceSpec.one_per_bin step -> forall n eps bins hs bins' hs' calls, bisect_loop step n eps bins hs = (bins', hs', calls) ->
  (0 < n)%nat -> length hs' = length bins.
Proof.
  intros SL n. induction n as [|n IH]; intros eps bins hs bins' hs' calls H Hn; [lia|]. cbn [bisect_loop] in H; cbv zeta in H.
  assert (LR : length (step (map b_val bins)) = length bins) by (rewrite SL; apply map_length).
  assert (LC : length (map2 check_valid bins (step (map b_val bins))) = length bins) by (rewrite TrainFacts.map2_length; lia).
  destruct (forallb _ _).
  - injection H as <- <- <-. rewrite map_length. exact LR.
  - destruct (bisect_loop step n eps _ _) as [[b2 h2] c2] eqn:EL. injection H as <- <- <-. destruct n as [|n].
    + cbn in EL. injection EL as <- <- <-. rewrite TrainFacts.map2_length; lia.
    + rewrite (IH _ _ _ _ _ _ EL) by lia. rewrite TrainFacts.map2_length; lia.
Qed.
Lemma exponent_lengths gm rows var_l ws : exists r, exponent_parameters gm rows var_l ws = Some r /\ length (fst r) = length ws /\ length (snd r) = length ws.
Proof.
  unfold exponent_parameters. destruct (bisect_terminates (newton_gradient rows var_l) (newton_step rows var_l) (map (fun w => Rltb 0 w) ws)
    (map (fun _ => 0) ws) (map (fun _ => 2) ws) (1 / 100) 9 (Some (map (fun _ => 1) ws)) (newton_step_per_bin rows var_l)) as (r & Hr & _).
  unfold exponent_bins. rewrite Hr. eexists. split; [reflexivity|].
  destruct (bisect_run _ _ _ _ _ _ _ _ _ Hr) as (bins' & hs' & E & E1 & E2 & _ & _).
  match type of E with bisect_loop _ _ _ ?i _ = _ => assert (L0 : length i = length ws) end.
  { unfold initial_bins. cbv zeta.
    assert (RL : length (set_right_bound (newton_gradient rows var_l) 10 (map (fun _ : R => 2) ws) (map (fun w => Rltb 0 w) ws)) = length ws)
      by (rewrite (right_bound_length _ (newton_gradient_per_bin rows var_l)); rewrite !map_length; reflexivity).
    match goal with |- length (map2 _ (combine ?a ?b) (combine ?c ?d)) = _ => assert (LD : length d = length ws) end.
    { match goal with |- length (if ?x then _ else _) = _ => destruct x end; [rewrite TrainFacts.map2_length; rewrite ?map_length; lia|apply map_length]. }
    rewrite TrainFacts.map2_length; rewrite ?combine_length, ?map_length; lia. }
  destruct (loop_lengths _ (newton_step_per_bin rows var_l) _ _ _ _ _ _ _ E) as (L1 & _ & _).
  pose proof (loop_curvatures _ (newton_step_per_bin rows var_l) _ _ _ _ _ _ _ E ltac:(lia)) as L2.
  rewrite E1, E2. assert (LA : length (map2 moment_matching (map b_val bins') (map inverse_hessian hs')) = length ws) by (rewrite TrainFacts.map2_length; rewrite ?map_length; lia).
  unfold calc_factors_and_uncertainties. cbn [fst snd]. split; repeat (rewrite TrainFacts.map2_length); rewrite ?map_length; lia.
Qed.

Lemma bound_price D l : forall i m f, nth_error (bind_price_groups D i l) m = Some f ->
  exists g, nth_error l m = Some g /\ f = bind_price_group D (i + m) g.
Proof.
  induction l as [|g l IH]; intros i [|m] f H; cbn [bind_price_groups nth_error] in *; try discriminate.
  - injection H as <-. exists g. rewrite Nat.add_0_r. auto.
  - destruct (IH (S i) m f H) as (g' & A & B). exists g'. split; auto. rewrite B. f_equal. lia.
Qed.
Lemma price_per_bin gm a c var_l fl D : TrainSpec.one_per_bin fl (fun i (_ : nat) p => fst (price_estimates gm a c var_l fl D i p)) (fun _ f => f).
Proof.
  split; [|reflexivity]. intros i f it p Hi. unfold price_estimates. rewrite Hi. cbv zeta. destruct (f_ext f).
  - destruct (exponent_lengths gm (exponent_rows a c (f_lex f) D p) var_l (bincounts (f_lex f) (map (bound_weight true) D) (S (f_finite f)))) as (r & -> & L & _).
    rewrite L. apply bincounts_length.
  - unfold nbinom_parameters, calc_factors_and_uncertainties. cbn [fst snd]. repeat (apply map2_same); try apply bincounts_length; rewrite ?map_length; apply bincounts_length.
Qed.
Lemma price_insample gm a c var_l prior gs cfg rate fuel D t : c_aggregate cfg = true -> binned_rows (map fst gs) (map q_row D) ->
  price_fit gm a c var_l prior gs cfg rate fuel D = Trained t ->
  length (price_fit_predict prior t D) = length D /\
  o_loss t = squares (map q_row D) (price_fit_predict prior t D) / total_weight (map q_row D).
Proof.
  intros Ag (B1 & B2 & B3) F. unfold price_fit in F. cbv zeta in F. destruct (global_scale Log _ _) as [scale|]; [|discriminate].
  set (offset := prior_offset _ _ _ _) in F.
  destruct (price_train gm a c var_l prior gs cfg rate fuel D scale offset) as [[st|e]|] eqn:Et; try discriminate. injection F as <-.
  unfold price_train in Et. cbv zeta in Et.
  match type of Et with fit_main _ _ _ _ _ _ _ _ ?p = _ => set (p0 := p) in * end.
  set (fl := bind_price_groups D 0 gs) in *.
  assert (G : forall f, In f fl -> exists m g, nth_error gs m = Some g /\ f = bind_price_group D m g).
  { intros f Hf. apply In_nth_error in Hf. destruct Hf as (m & Hm). destruct (bound_price _ _ _ _ _ Hm) as (g & Hg & ->). exists m, g. auto. }
  assert (W : well_shaped (length D) fl p0).
  { split; [unfold p0, prior_predictions, price_column, linked_prior; cbn [p_factors]; destruct prior; [rewrite !map_length; reflexivity|apply repeat_length]|]. split; [apply zeros_length|].
    intros f Hf. destruct (G f Hf) as (m & g & Hg & ->). cbn [bind_price_group f_rows f_dim]. split; [apply map_length|].
    intros x Hr. apply in_map_iff in Hr. destruct Hr as (s & <- & Hs). apply (B1 (q_row s) m (fst g) (in_map _ _ _ Hs)). rewrite nth_error_map, Hg. reflexivity. }
  assert (Hd : forall f, In f fl -> (1 <= f_dim f)%nat).
  { intros f Hf. destruct (G f Hf) as (m & g & Hg & ->). cbn. apply B2. apply in_map. eapply nth_error_In; eauto. }
  assert (Hwh : forall f, In f fl -> whole_rows (f_rows f)).
  { intros f Hf. destruct (G f Hf) as (m & g & Hg & ->). intros r x Hr Hx. cbn in Hr. apply in_map_iff in Hr. destruct Hr as (s & <- & Hs). exact (B3 (q_row s) m x (in_map _ _ _ Hs) Hx). }
  assert (Ro : rows_of (fun r => x_bins (q_row r)) D fl).
  { intros m f H. destruct (bound_price _ _ _ _ _ H) as (g & _ & ->). reflexivity. }
  pose proof (fitted_insample _ D _ _ _ _ _ _ _ _ _ _ Ro W (price_per_bin gm a c var_l fl D) Et Ag Hd Hwh) as L.
  cbn [o_loss]. rewrite L. unfold price_fit_predict. cbn [o_scale o_offset o_groups]. fold p0.
  match goal with |- context [price_scores D ?p] => set (P := p) end.
  assert (LP : plen (length D) P).
  { unfold P. apply predict_plen; [split; apply W|apply map_length]. }
  assert (LS : length (map exp (price_scores D P)) = length D).
  { destruct LP as [L1 L2]. unfold price_scores, link_rows. rewrite !map_length, TrainFacts.map2_length; rewrite ?combine_length; lia. }
  split; [exact LS|]. unfold price_loss, squared_loss.
  rewrite <- (map_map q_row x_y), <- (map_map q_row x_w), squares_sum, weights_sum by (rewrite (map_length q_row); exact LS). reflexivity.
Qed.
