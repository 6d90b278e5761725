(** Predictions of pipelines grow with a column that is declared increasing. *)
From Coq Require Import ZArith NArith QArith Qreals List Bool Reals String Lia Lra.
From Verif.Proofs Require Import LexFacts FlagFacts TrainFacts TrainHistory LinkFacts TransformFacts FrameFacts PredictFacts NeutralFacts EstimatorFacts
  MonotoneTrain IsotonicRuns RefitFacts FitUser UnitFacts PipeRuns PipeRows PipeSteps PipeWeights ColumnMonotone.
From Verif.Model Require Import Num BinarySearch Flags Ecdf BinTransform Frames LexBins Train Predict Link Estimators Gbs WholeFit Refit
  SmootherChoice MetaSmoothers Isotonic Pipe.
From Verif.Spec Require Import SearchSpec BinningSpec FrameSpec PipeSpec PredictSpec LexSpec TrainSpec IsotonicSpec MonotoneSpec.
Import ListNotations.
Local Open Scope R_scope.

(** ** Binned cells *)
Lemma cells b T b' c : table T -> bin_fit b T = FOk b' ->
  exists g, (forall p f, FrameSpec.learned b T c p f -> forall xs, transform_column p f xs = Some (map g xs)) /\
  forall Y Xt x, table Y -> fst (bin_transform b' Y) = FOk Xt -> get_column (fr_cols Xt) c = Some x ->
    exists x0, column_is Y c x0 /\ x = map g x0.
Proof.
  intros TT F. destruct (learned_or_not b T b' c TT F) as [(p & f & g & L & Hg)|No].
  - exists g. split.
    { intros p' f' L'. destruct (learned_unique _ _ _ _ _ _ _ (proj1 TT) L L') as [<- <-]. exact Hg. }
    intros Y Xt x TY E G. destruct (bin_transform b' Y) as [? ?] eqn:H. cbn in E. subst.
    destruct (transform_columns _ _ _ _ _ _ TT TY F H) as [(S1 & S2 & S3) C].
    assert (NX : NoDup (labels Xt)) by (rewrite S3; apply TY). pose proof G as G0. apply get_in in G.
    assert (I : In c (labels Y)) by (rewrite <- S3; change c with (fst (c, x)); apply in_map; exact G).
    apply in_map_iff in I. destruct I as ([d x0] & E1 & I). cbn in E1. subst d. exists x0. split; [exact I|].
    destruct (C c x0 I) as [C1 _]. destruct (C1 p f L) as (y & Y1 & Y2). rewrite Hg in Y2. injection Y2 as <-.
    apply (get_of_in _ _ _ NX) in Y1. congruence.
  - exists (fun v => v). split.
    { intros p f (t & ws & _ & FC & _). exfalso. exact (No _ FC). }
    intros Y Xt x TY E G. rewrite (PipeWeights.raw_column _ _ _ _ _ _ TT TY F E No) in G. exists x. rewrite map_id. split; [apply get_in; exact G|reflexivity].
Qed.

(** ** Rows of the groups *)
Lemma map2_same {A B C} (f : A -> B -> C) : forall a b n, List.length a = n -> List.length b = n -> List.length (map2 f a b) = n.
Proof. intros a b n Ha Hb. rewrite TrainFacts.map2_length; congruence. Qed.
Lemma bound_feature D gs : forall i m f, nth_error (bind_groups D i gs) m = Some f ->
  exists g, nth_error gs m = Some g /\ f = bind_group D (i + m) g.
Proof.
  induction gs as [|g gs IH]; intros i [|m] f H; cbn [bind_groups nth_error] in *; try discriminate.
  - injection H as <-. exists g. rewrite Nat.add_0_r. auto.
  - destruct (IH (S i) m f H) as (g' & A & B). exists g'. split; auto. rewrite B. f_equal. lia.
Qed.
Lemma read_nth cols gl : forall columns m g, read_groups cols gl = Some columns -> nth_error gl m = Some g ->
  read_columns cols g = Some (nth m columns []).
Proof.
  induction gl as [|g0 gl IH]; intros columns [|m] g H E; cbn [nth_error read_groups] in *; try discriminate.
  - destruct (read_columns cols g0) as [v|] eqn:Ec; [|discriminate]. destruct (read_groups cols gl); [|discriminate]. injection H as <-. injection E as <-. exact Ec.
  - destruct (read_columns cols g0) as [v|]; [|discriminate]. destruct (read_groups cols gl) as [vs|] eqn:Er; [|discriminate]. injection H as <-. cbn [nth]. apply IH; auto.
Qed.
Lemma read_length cols g : forall v, read_columns cols g = Some v -> List.length v = List.length g.
Proof.
  induction g as [|c g IH]; intros v H; cbn [read_columns] in H; [injection H as <-; reflexivity|].
  destruct (get_column cols c); [|discriminate]. destruct (read_columns cols g) as [vs|]; [|discriminate]. injection H as <-. cbn [List.length]. rewrite (IH vs); reflexivity.
Qed.

Lemma data_row_bins columns T m row : In row (map (fun s => x_bins s m) (data_rows columns T)) <->
  exists j, (j < List.length T)%nat /\ row = map (fun c => nth j c NaN) (nth m columns []).
Proof.
  split.
  - intro H. apply (In_nth_error) in H. destruct H as (j & H). rewrite nth_error_map in H.
    assert (Hj : (j < List.length T)%nat).
    { rewrite <- (rows_length columns T). apply nth_error_Some. destruct (nth_error (data_rows columns T) j); [discriminate|discriminate H]. }
    destruct (nth_rows columns T j Hj) as (t & _ & B). exists j. split; [exact Hj|]. rewrite B in H. cbn in H. congruence.
  - intros (j & Hj & ->). destruct (nth_rows columns T j Hj) as (t & _ & B). apply (nth_error_In _ j).
    rewrite nth_error_map, B. reflexivity.
Qed.

(** ** One training of an estimator, spelled out *)
Section Loop.
Variable gm : R -> R.
Variable bppf : R -> R -> R -> R.
Variable erfinv : R -> R.
Variable bad : R.
Variable k : kind.
Variable pc : bool.
Variable cfg : settings.
Variable rate : nat -> nat -> R.
Variable accepted : list target -> bool.
Variable style : list label -> group.

Lemma object_loop fuel o d o' : fit_object gm bppf erfinv bad k pc cfg rate accepted style fuel o d = (None, o') ->
  exists gl columns p st,
  b_groups o' = Some gl /\ gl = default_groups o (d_cols d) /\ read_groups (d_cols d) gl = Some columns /\
  let D := data_rows columns (d_targets d) in
  let fl := bind_groups D 0 (map style gl) in
  let y := map v_y (d_targets d) in
  let w := map v_w (d_targets d) in
  fit_main cfg fl (fun i (_ : nat) p => map (estimate_value bad) (group_estimates gm bppf erfinv k fl y w i p))
    (fun i (_ : nat) p => group_smoother gm bppf erfinv bad k (map style gl) fl y w i p)
    (kind_calibration k fl w) rate (fun p => kind_loss bad k y w (p_factors p)) fuel p = Some (Ok st) /\
  List.length (p_factors p) = List.length D /\ List.length (p_exponents p) = List.length D /\
  b_bound o' = fl /\ b_states o' = map Some (t_feats st) /\ b_diverging o' = t_diverging st.
Proof.
  unfold fit_object. destruct (accepted (d_targets d)); [|discriminate]. cbn [negb]. cbv zeta.
  change (default_groups (init_weights o (d_targets d)) (d_cols d)) with (default_groups o (d_cols d)).
  set (gl := default_groups o (d_cols d)).
  set (o2 := init_scale k pc (init_features (init_weights o (d_targets d)) gl) (d_targets d)).
  destruct (b_scale o2) as [s|]; [|discriminate]. destruct (read_groups (d_cols d) gl) as [columns|] eqn:Rd; [|discriminate].
  set (D := data_rows columns (d_targets d)). set (fl := bind_groups D 0 (map style gl)).
  set (p := start_preds o2 s (linked_column k pc D) (List.length D)).
  set (o3 := start_main bad k o2 (d_targets d) fl p).
  change (weights_of o3) with (map v_w (d_targets d)).
  set (w := map v_w (d_targets d)). set (y := map v_y (d_targets d)).
  assert (ES : loop_state o3 p = init_state fl (fun p => kind_loss bad k y w (p_factors p)) p).
  { unfold loop_state, init_state. cbn [o3 start_main b_states b_iter b_diverging b_isdiv b_loss o2 init_scale init_features]. f_equal.
    apply new_states. unfold fl. rewrite bind_length, map_length. reflexivity. }
  rewrite ES. change (b_initial o3) with (kind_loss bad k y w (p_factors p)).
  match goal with |- context [loop ?a ?b ?c ?d ?e ?f ?g ?h ?i ?j] => destruct (loop a b c d e f g h i j) as [[st|]|] eqn:E end; try discriminate.
  intro H. injection H as <-. exists gl, columns, p, st.
  split; [reflexivity|]. split; [reflexivity|]. split; [exact Rd|]. cbv zeta. fold D fl y w. split; [exact E|].
  split. { unfold p, start_preds. cbn [p_factors]. unfold prior_predictions, linked_column, linked_prior. destruct pc; [rewrite !map_length|rewrite repeat_length]; reflexivity. }
  split. { unfold p, start_preds. cbn [p_exponents]. apply repeat_length. }
  split; [reflexivity|]. split; reflexivity.
Qed.

(** One estimate for each bin. *)
Lemma estimates_length kd lex n y w score : List.length (estimates gm bppf erfinv kd lex n y w score) = n.
Proof.
  destruct kd; cbn [estimates].
  - apply map2_same; unfold nbinom_parameters, calc_factors_and_uncertainties; cbn [fst snd]; repeat (apply map2_same); try apply bincounts_length; rewrite ?map_length; apply bincounts_length.
  - apply map2_same; unfold poisson_parameters, poisson_precalc, calc_factors_and_uncertainties; cbn [fst snd]; repeat (apply map2_same); try apply bincounts_length; rewrite ?map_length; apply bincounts_length.
  - apply map2_same; apply bincounts_length.
  - apply map2_same; [unfold precalc_variance_y|unfold calc_factors_generic]; rewrite map_length; apply seq_length.
  - unfold locpoisson_parameters. rewrite map_length; apply seq_length.
  - unfold gbs_parameters. rewrite map_length; apply seq_length.
Qed.
Lemma loop_per_bin fl y w : one_per_bin fl (fun i (_ : nat) p => map (estimate_value bad) (group_estimates gm bppf erfinv k fl y w i p)) (kind_calibration k fl w).
Proof.
  split.
  - intros i f it p Hi. rewrite map_length. unfold group_estimates. rewrite Hi. apply estimates_length.
  - intros i v Hv. unfold kind_calibration. destruct k; try reflexivity. unfold location_calibration.
    destruct (nth_error fl i); [|reflexivity]. destruct (List.length v) as [|n] eqn:E; [destruct v; [congruence|discriminate]|].
    apply calibrate_length. exact E.
Qed.
Lemma kind_moves fl w m f : nth_error fl m = Some f -> moves_all (f_finite f) (kind_calibration k fl w m).
Proof.
  intro H. destruct k; try (intros v _; exists 0; intros j _; cbn [kind_calibration]; lra). apply location_moves. exact H.
Qed.
End Loop.
Section Style.
Variable style : list label -> group.
Variable f_style : forall g, g_dim (style g) = List.length g.

Lemma loop_shaped cols gl columns T p : read_groups cols gl = Some columns ->
  let D := data_rows columns T in
  List.length (p_factors p) = List.length D -> List.length (p_exponents p) = List.length D ->
  well_shaped (List.length D) (bind_groups D 0 (map style gl)) p.
Proof.
  intros Rd D L1 L2. split; [exact L1|]. split; [exact L2|]. intros f Hf. apply In_nth_error in Hf. destruct Hf as (m & Hm).
  destruct (bound_feature _ _ _ _ _ Hm) as (g & Hg & ->). rewrite nth_error_map in Hg. destruct (nth_error gl m) as [names|] eqn:En; [|discriminate].
  cbn in Hg. injection Hg as <-. cbn [bind_group f_rows f_dim Nat.add]. split; [apply map_length|].
  intros row Hr. apply data_row_bins in Hr. destruct Hr as (j & _ & ->). rewrite map_length, f_style.
  eapply read_length, read_nth; eauto.
Qed.
End Style.

(** ** One-dimensional groups *)
Lemma one_dim_bound f z : f_dim f = 1%nat -> (forall r, In r (f_rows f) -> List.length r = 1%nat) -> (0 <= z)%Z ->
  In [Fin (inject_Z z)] (f_rows f) -> (Z.to_nat z < f_finite f)%nat.
Proof.
  intros Hd Hr Hz Hin. assert (Hr' : forall r, In r (f_rows f) -> List.length r = f_dim f) by (intros; rewrite Hd; auto).
  assert (U : row_finite_semi_positive [Fin (inject_Z z)] = true).
  { unfold row_finite_semi_positive. cbn. rewrite andb_true_r. apply Qle_bool_iff. change 0%Q with (inject_Z 0). rewrite <- Zle_Qle. exact Hz. }
  destruct (f_shape_or_empty f ltac:(lia) Hr') as [(S1 & S2 & S3)|(E1 & E2 & E3)]; [|rewrite (E3 _ Hin) in U; discriminate].
  pose proof (data_rows_valid _ _ _ Hr' Hin U) as V. rewrite <- f_nbins_data in V.
  pose proof (f_nbins_length f Hr') as Ln. rewrite Hd in Ln. destruct (f_nbins f) as [|n [|? ?]] eqn:En; try discriminate.
  rewrite S2. unfold row_valid in V. cbn in V. rewrite !andb_true_r in V. apply andb_true_iff in V. destruct V as [_ V].
  unfold flt in V. cbn in V. apply negb_true_iff in V.
  assert (z < n)%Z. { apply Z.nle_gt. intro L. rewrite Zle_Qle in L. apply Qle_bool_iff in L. congruence. }
  unfold size. cbn. lia.
Qed.
Lemma alone_value f fs a z : f_dim f = 1%nat -> s_agg fs = Some a -> List.length a = S (f_finite f) -> (0 <= z)%Z -> (Z.to_nat z < f_finite f)%nat ->
  alone (store f fs) [Fin (inject_Z z)] = nth (Z.to_nat z) a 0.
Proof.
  intros Hd Ha La Hz Hb. rewrite alone_rowpred. unfold rowpred.
  assert (NN : nonneg (Fin (inject_Z z)) = true). { unfold nonneg. cbn. apply Qle_bool_iff. change 0%Q with (inject_Z 0). rewrite <- Zle_Qle. exact Hz. }
  assert (U : row_finite_semi_positive [Fin (inject_Z z)] = true).
  { unfold row_finite_semi_positive. cbn [forallb isfinite]. rewrite NN. reflexivity. }
  rewrite U. unfold store at 1. cbn [m_smoother]. destruct (Nat.eqb_spec (f_finite f) 0); [lia|]. cbn [negb].
  unfold smoother_predict. change (m_dim (store f fs)) with (f_dim f). rewrite Hd. cbn [Nat.ltb Nat.leb].
  unfold store. cbn [m_values]. rewrite Ha. unfold onedim_predict. cbn [hd]. rewrite (np_round_int _ z) by (eexists; split; [reflexivity|apply Qeq_refl]).
  cbn [isfinite]. rewrite NN, firstn_length_le by lia. rewrite (proj2 (Z.ltb_lt _ _)) by lia. cbn [andb].
  rewrite <- (firstn_skipn (f_finite f) a) at 2. rewrite app_nth1; [reflexivity|]. rewrite firstn_length_le; lia.
Qed.
Lemma group_sum_le ms : forall i (x x' : datarow), (forall n m, nth_error ms n = Some m -> alone m (x (i + n)%nat) <= alone m (x' (i + n)%nat)) ->
  group_sum alone false i ms x <= group_sum alone false i ms x'.
Proof.
  induction ms as [|m r IH]; intros i x x' H; cbn [group_sum]; [lra|].
  pose proof (H 0%nat m eq_refl) as H0. rewrite Nat.add_0_r in H0.
  pose proof (IH (S i) x x') as I. specialize (I (fun n m' E => ltac:(specialize (H (S n) m' E); rewrite Nat.add_succ_r in H; exact H))).
  destruct (Bool.eqb (m_ext m) false); lra.
Qed.

(** ** Whole pipelines *)
Section Monotone.
Variable gamma_median : R -> R.
Variable beta_ppf : R -> R -> R -> R.
Variable erfinv : R -> R.
Variable bad : R.
Variable k : kind.
Variable weight prior : option label.
Variable cfg : settings.
Variable rate : nat -> nat -> R.
Variable accepted : list target -> bool.
Variable style : list label -> group.
Variable bins : label -> Z.
Variable props : option (label -> option N).
Variable inplace : bool.
Let b := pipeline_binner bins props inplace.
Notation run := (pipe_fit gamma_median beta_ppf erfinv bad k weight prior cfg rate accepted style).
Notation ask := (pipe_predict k weight prior).
Variables (c : label) (p : N) (cc : choice_class) (ut un : bool) (explicit : list label -> option smoother)
  (other : smoother -> smoothing_alg) (s : smoother).
Hypothesis Hdecl : declares props c p.
Hypothesis Hcont : is_continuous_set p = true.
Hypothesis Hmag : has_magic_missing_set p = false.
Hypothesis Hbins : (2 <= bins c <= 100000000)%Z.
Hypothesis Hdim : forall g, g_dim (style g) = List.length g.
Hypothesis Hcc : cc <> ChoiceNone.
Hypothesis Hexp : explicit [c] = None.
Hypothesis Hch : choice_fct cc ut un explicit [c] [p] = Some s.
Hypothesis Hfit : fitted_by (smoother_alg other s) (style [c]).
Hypothesis Hrate : forall it m, 0 <= rate it m.
Hypothesis Hprior : prior <> Some c.

(** What the training leaves for the group of the column. *)
Lemma group_follows fuel o d o' up : monotonic p -> (monotonic_increasing p /\ up = true) \/ (monotonic_decreasing p /\ up = false) ->
  fit_object gamma_median beta_ppf erfinv bad k (has_prior prior) cfg rate accepted style fuel o d = (None, o') ->
  (c_log cfg && c_aggregate cfg = false \/ b_diverging o' = 0%nat) ->
  exists gl, b_groups o' = Some gl /\ gl = default_groups o (d_cols d) /\
  forall m mm, nth_error gl m = Some [c] -> nth_error (map2 store (b_bound o') (present (b_states o'))) m = Some mm ->
  exists x f fs a, get_column (d_cols d) c = Some x /\ mm = store f fs /\ f_dim f = 1%nat /\ (forall r, In r (f_rows f) -> List.length r = 1%nat) /\
    s_agg fs = Some a /\ List.length a = S (f_finite f) /\ follows_to up (f_finite f) a /\
    forall j, (j < List.length (d_targets d))%nat -> In [nth j x NaN] (f_rows f).
Proof.
  intros Hm Hup F Hor. destruct (object_loop _ _ _ _ _ _ _ _ _ _ _ _ _ _ F) as (gl & columns & pr & st & G1 & G2 & Rd & FM & L1 & L2 & B1 & B2 & B3).
  exists gl. split; [exact G1|]. split; [exact G2|]. intros m mm Hg Hst.
  set (D := data_rows columns (d_targets d)) in *. set (fl := bind_groups D 0 (map style gl)) in *.
  set (w := map v_w (d_targets d)) in *. set (y := map v_y (d_targets d)) in *.
  rewrite B1, B2, present_some in Hst.
  pose proof (loop_shaped style Hdim _ _ _ (d_targets d) pr Rd L1 L2) as SH. fold D fl in SH.
  pose proof (loop_per_bin gamma_median beta_ppf erfinv bad k fl y w) as PB.
  assert (Em : exists f, nth_error fl m = Some f).
  { destruct (nth_error fl m) eqn:E; [eauto|]. apply nth_error_None in E. unfold fl in E. rewrite bind_length, map_length in E.
    assert (m < List.length gl)%nat by (apply nth_error_Some; congruence). lia. }
  destruct Em as (f & Ef). destruct (bound_feature _ _ _ _ _ Ef) as (g & Eg & Hf). rewrite nth_error_map, Hg in Eg. cbn in Eg. injection Eg as Eg. subst g.
  cbn [Nat.add] in Hf. destruct Hfit as (rounded & Hsm).
  set (unc := fun (_ : nat) q => firstn (f_finite f) (map (estimate_uncertainty bad) (group_estimates gamma_median beta_ppf erfinv k fl y w m q))).
  rewrite B3 in Hor.
  assert (Smo : forall (it : nat) q values kk, group_smoother gamma_median beta_ppf erfinv bad k (map style gl) fl y w m q values kk =
    fitted_smoother (smoother_alg other s) (f_finite f) (rounded (bincounts (f_lex f) w (f_finite f))) unc it q values kk).
  { intros it q values kk. unfold group_smoother. rewrite nth_error_map, Hg. cbn [option_map]. rewrite Ef, Hsm.
    assert (LU : List.length (firstn (f_finite f) (map (estimate_uncertainty bad) (group_estimates gamma_median beta_ppf erfinv k fl y w m q))) = f_finite f).
    { rewrite firstn_length_le; [reflexivity|]. rewrite map_length. unfold group_estimates. rewrite Ef, estimates_length. lia. }
    rewrite LU. reflexivity. }
  destruct (monotone_training cfg fl _ (fun i (_ : nat) q => group_smoother gamma_median beta_ppf erfinv bad k (map style gl) fl y w i q) _ rate
    (fun q => kind_loss bad k y w (p_factors q)) pr (List.length D) m f cc ut un explicit c p other s
    (rounded (bincounts (f_lex f) w (f_finite f))) unc SH PB Ef Hcc Hexp Hm Hch Smo (kind_moves k fl w m f Ef) (fun it => Hrate it m) fuel st FM Hor)
    as (fs & a & Fs & Fa & La & I1 & I2).
  pose proof (read_nth _ _ _ _ _ Rd Hg) as Rc. cbn [read_columns] in Rc.
  destruct (get_column (d_cols d) c) as [x|]; [|discriminate]. injection Rc as Rc.
  exists x, f, fs, a. split; [reflexivity|].
  assert (Emm : mm = store f fs).
  { clear - Hst Ef Fs. revert m Hst Ef Fs. generalize (t_feats st). generalize fl. induction fl0 as [|h t IH]; intros [|u l] [|m] H1 H2 H3; cbn [map2 nth_error] in *; try discriminate.
    - congruence.
    - apply (IH l m); auto. }
  split; [exact Emm|]. split; [rewrite Hf; cbn [bind_group f_dim]; apply Hdim|].
  split. { intros r Hr. rewrite Hf in Hr. cbn [bind_group f_rows] in Hr. apply data_row_bins in Hr. destruct Hr as (j & _ & ->). rewrite map_length, <- Rc. reflexivity. }
  split; [exact Fa|]. split; [exact La|].
  split. { destruct Hup as [[U ->]|[U ->]]; auto. }
  intros j Hj. rewrite Hf. cbn [bind_group f_rows]. apply data_row_bins. exists j. split; [exact Hj|]. rewrite <- Rc. reflexivity.
Qed.

Lemma targets_length Xt y W : table Xt -> train_targets weight prior Xt y = Some W -> List.length y = List.length (fr_index Xt) ->
  List.length W = List.length (fr_index Xt).
Proof.
  intros HT H Hy. unfold train_targets in H. destruct (read_weights weight Xt) as [w|] eqn:Ew; [|discriminate]. destruct (read_priors prior Xt) as [q|] eqn:Eq; [|discriminate].
  injection H as <-. assert (Lw : List.length w = List.length (fr_index Xt)).
  { unfold read_weights in Ew. destruct weight as [d|]; [|injection Ew as <-; apply map_length].
    destruct (get_column (fr_cols Xt) d) as [v|] eqn:G; [|discriminate]. apply get_in in G. rewrite <- (proj2 HT d v G).
    assert (FA : forall l w, finite_all l = Some w -> List.length w = List.length l).
    { clear. induction l as [|[u|] l IH]; intros w H; cbn [finite_all] in H; try discriminate; [injection H as <-; reflexivity|].
      destruct (finite_all l); [|discriminate]. injection H as <-. cbn [List.length]. rewrite (IH l0); reflexivity. }
    rewrite (FA _ _ Ew), map_length. reflexivity. }
  assert (Lq : List.length q = List.length (fr_index Xt)).
  { unfold read_priors in Eq. destruct prior as [d|]; [|injection Eq as <-; apply map_length].
    destruct (get_column (fr_cols Xt) d) as [v|] eqn:G; [|discriminate]. apply get_in in G. injection Eq as <-. rewrite map_length. exact (proj2 HT d v G). }
  rewrite TrainFacts.map2_length; rewrite TrainFacts.map2_length; congruence.
Qed.
Lemma map_cell (g : fnum -> fnum) x i : (i < List.length x)%nat -> nth i (map g x) NaN = g (nth i x NaN).
Proof. intro H. rewrite (nth_indep _ NaN (g NaN)) by (rewrite map_length; exact H). apply map_nth. Qed.
Lemma unlink_le l v v' : v <= v' -> unlink_func l v <= unlink_func l v'.
Proof. intros [H| ->]; [|lra]. left. apply unlink_increasing. exact H. Qed.
Lemma output_le kk v v' : v <= v' -> kind_output kk v <= kind_output kk v'.
Proof.
  intro H. destruct kk; try apply (unlink_le _ _ _ H). cbn. unfold Rltb. destruct (Rlt_dec 0 v), (Rlt_dec 0 v'); lra.
Qed.

Lemma read_columns_cells cols cols' (i j : nat) names : forall v v',
  (forall d x x', In d names -> get_column cols d = Some x -> get_column cols' d = Some x' -> nth i x NaN = nth j x' NaN) ->
  read_columns cols names = Some v -> read_columns cols' names = Some v' ->
  map (fun c => nth i c NaN) v = map (fun c => nth j c NaN) v'.
Proof. intros v v' H. apply (read_columns_same cols cols' i j (fun _ => True)). exact H. Qed.

Definition in_order (up : bool) (a b : R) : Prop := if up then a <= b else b <= a.

Lemma pipe_order fuel o T y P1 up : monotonic p -> (monotonic_increasing p /\ up = true) \/ (monotonic_decreasing p /\ up = false) ->
  table T -> finite_column T c -> List.length y = List.length (fr_index T) -> in_no_interaction c o ->
  run fuel {| l_binner := b; l_object := o |} T y = (None, P1) ->
  (c_log cfg && c_aggregate cfg = false \/ b_diverging (l_object P1) = 0%nat) ->
  forall Y r Y' r' i j, table Y -> table Y' -> ask P1 Y = Some r -> ask P1 Y' = Some r' ->
  (i < List.length (fr_index Y))%nat -> (j < List.length (fr_index Y'))%nat -> grows_in c Y i Y' j ->
  in_order up (nth i r 0) (nth j r' 0).
Proof.
  intros Hm Hup TT Fin_c Ly Hint F Hor Y r Y' r' i j TY TY' A A' Hi Hj S.
  pose proof F as F0. apply pipe_trained in F0. cbn [l_binner] in F0.
  destruct (pipe_parts _ _ _ _ _ _ _ _ _ _ _ _ _ _ _ _ _ _ _ F) as (Tt & W & E0 & ET & FO).
  destruct (binned_table _ _ _ _ _ TT TT F0 E0) as [TTt STt].
  pose proof (targets_length _ _ _ TTt ET ltac:(congruence)) as LW. rewrite STt in LW.
  destruct (group_follows _ _ _ _ up Hm Hup FO Hor) as (gl & G & Gd & GF). cbn [d_cols d_targets] in *.
  unfold pipe_predict in A, A'.
  destruct (fst (bin_transform (l_binner P1) Y)) as [Xt|] eqn:E; [|discriminate].
  destruct (fst (bin_transform (l_binner P1) Y')) as [Xt'|] eqn:E'; [|discriminate].
  destruct (binned_table _ _ _ _ _ TT TY F0 E) as [TX SX]. destruct (binned_table _ _ _ _ _ TT TY' F0 E') as [TX' SX'].
  destruct (predict_targets prior Xt) as [t|] eqn:Pt; [|discriminate]. destruct (predict_targets prior Xt') as [t'|] eqn:Pt'; [|discriminate].
  pose proof (priors_length _ _ _ TX Pt) as Lt. pose proof (priors_length _ _ _ TX' Pt') as Lt'. rewrite SX in Lt. rewrite SX' in Lt'.
  destruct (frame_row _ _ _ _ _ _ G A) as (sc & columns & B1 & B2 & B3 & B4).
  destruct (frame_row _ _ _ _ _ _ G A') as (sc' & columns' & B1' & B2' & B3' & B4').
  cbn [d_targets d_cols] in *.
  destruct (B4 i) as (ti & T1 & T2); [lia|]. destruct (B4' j) as (tj & T1' & T2'); [lia|].
  rewrite (nth_error_nth _ _ 0 T2), (nth_error_nth _ _ 0 T2'). assert (sc' = sc) by congruence. subst sc'.
  (* cells of the other columns *)
  assert (Cell : forall d x x', d <> c -> get_column (fr_cols Xt) d = Some x -> get_column (fr_cols Xt') d = Some x' -> nth i x NaN = nth j x' NaN).
  { intros d x x' Hd Gx Gx'. destruct (cells _ _ _ d TT F0) as (g & _ & Hg).
    destruct (Hg _ _ _ TY E Gx) as (x0 & C0 & ->). destruct (Hg _ _ _ TY' E' Gx') as (x0' & C0' & ->).
    rewrite !map_cell; [|rewrite (proj2 TY' d x0' C0'); exact Hj|rewrite (proj2 TY d x0 C0); exact Hi].
    f_equal. apply (S d x0 x0' C0 C0'). exact Hd. }
  assert (Pr : (if has_prior prior then match link_option (kind_link k) (v_prior ti) with Some x => x + b_offset (l_object P1) | None => sc end else sc) =
    (if has_prior prior then match link_option (kind_link k) (v_prior tj) with Some x => x + b_offset (l_object P1) | None => sc end else sc)).
  { destruct (has_prior prior) eqn:Hp; [|reflexivity].
    assert (V : v_prior ti = v_prior tj); [|rewrite V; reflexivity].
    unfold has_prior in Hp. unfold predict_targets, read_priors in Pt, Pt'. destruct prior as [d|]; [|discriminate].
    destruct (get_column (fr_cols Xt) d) as [v|] eqn:Gv; [|discriminate]. destruct (get_column (fr_cols Xt') d) as [v'|] eqn:Gv'; [|discriminate].
    injection Pt as <-. injection Pt' as <-. assert (Hd : d <> c) by congruence. specialize (Cell d v v' Hd Gv Gv').
    rewrite map_map, nth_error_map in T1, T1'.
    destruct (nth_error v i) as [vi|] eqn:N1; [|discriminate]. destruct (nth_error v' j) as [vj|] eqn:N2; [|discriminate].
    cbn in T1, T1'. injection T1 as <-. injection T1' as <-. cbn [v_prior].
    rewrite (nth_error_nth _ _ NaN N1), (nth_error_nth _ _ NaN N2) in Cell. rewrite Cell. reflexivity. }
  rewrite Pr. clear Pr.
  assert (Feat : forall Z d x, get_column (feature_columns weight prior Z) d = Some x -> get_column (fr_cols Z) d = Some x).
  { intros Z d x Q. unfold feature_columns in Q. rewrite (get_filter (fun d => negb (excluded prior d) && negb (excluded weight d))) in Q.
    destruct (negb (excluded prior d) && negb (excluded weight d)); [exact Q|discriminate]. }
  assert (Gsum : forall n m, nth_error (map2 store (b_bound (l_object P1)) (present (b_states (l_object P1)))) n = Some m ->
    in_order up (alone m (map (fun c => nth i c NaN) (nth n columns []))) (alone m (map (fun c => nth j c NaN) (nth n columns' [])))).
  { intros n m Hn. destruct (nth_error gl n) as [names|] eqn:Eg.
    2:{ assert (L1 : (List.length gl <= n)%nat) by (apply nth_error_None; exact Eg).
        assert (LC : forall cols gl v, read_groups cols gl = Some v -> List.length v = List.length gl).
        { clear. induction gl as [|g gl IH]; intros v H; cbn [read_groups] in H; [injection H as <-; reflexivity|].
          destruct (read_columns cols g); [|discriminate]. destruct (read_groups cols gl); [|discriminate]. injection H as <-. cbn. rewrite (IH l0); reflexivity. }
        rewrite (nth_overflow columns) by (rewrite (LC _ _ _ B2); exact L1). rewrite (nth_overflow columns') by (rewrite (LC _ _ _ B2'); exact L1). unfold in_order. destruct up; apply Rle_refl. }
    pose proof (read_nth _ _ _ _ _ B2 Eg) as Rc. pose proof (read_nth _ _ _ _ _ B2' Eg) as Rc'.
    destruct (in_dec (fun a b => match bool_dec (label_eqb a b) true with left e => left (proj1 (label_eqb_iff a b) e) | right e => right (fun q => e (proj2 (label_eqb_iff a b) q)) end) c names) as [I|I].
    2:{ rewrite (read_columns_cells _ _ i j _ _ _ (fun d x x' Hd Q Q' => Cell d x x' (fun e => I (eq_ind _ (fun d => In d names) Hd _ e)) (Feat _ _ _ Q) (Feat _ _ _ Q')) Rc Rc').
        unfold in_order. destruct up; apply Rle_refl. }
    assert (names = [c]).
    { unfold default_groups in Gd. destruct (b_groups o) as [gl0|] eqn:Go.
      - subst gl0. apply (Hint gl names Go); auto. eapply nth_error_In; eauto.
      - subst gl. rewrite nth_error_map in Eg. destruct (nth_error (map fst (feature_columns weight prior Tt)) n) as [d|]; [|discriminate]. cbn in Eg. injection Eg as <-. destruct I as [->|[]]. reflexivity. }
    subst names. cbn [read_columns] in Rc, Rc'.
    destruct (get_column (feature_columns weight prior Xt) c) as [x|] eqn:Gx; [|discriminate]. destruct (get_column (feature_columns weight prior Xt') c) as [x'|] eqn:Gx'; [|discriminate].
    injection Rc as Rc. injection Rc' as Rc'. rewrite <- Rc, <- Rc'. cbn [map].
    apply Feat in Gx. apply Feat in Gx'.
    destruct (GF n m Eg Hn) as (xt & f & fs & a & Gt & -> & Fd & Fr & Fa & La & Fol & Frow). apply Feat in Gt.
    destruct (cells _ _ _ c TT F0) as (g & HL & Hg).
    destruct (Hg _ _ _ TY E Gx) as (x0 & C0 & ->). destruct (Hg _ _ _ TY' E' Gx') as (x0' & C0' & ->). destruct (Hg _ _ _ TT E0 Gt) as (xt0 & Ct & ->).
    rewrite !map_cell; [|rewrite (proj2 TY' c x0' C0'); exact Hj|rewrite (proj2 TY c x0 C0); exact Hi].
    destruct (S c x0 x0' C0 C0') as [Sc _]. destruct (Sc eq_refl) as (q & q' & -> & -> & Q).
    assert (Ic : In c (labels T)) by (change c with (fst (c, xt0)); apply in_map; exact Ct).
    destruct (learned_continuous bins props inplace c T _ TT F0 (ex_intro _ p (conj Hdecl (conj Hcont Hmag))) Ic) as (p' & tt & LL & Ctt & K1 & K2 & K3).
    assert (tt = xt0) by (apply (get_of_in _ _ _ (proj1 TT)) in Ct, Ctt; congruence). subst tt.
    specialize (HL _ _ LL).
    assert (PW : positive_weights (combine xt0 (ones T))).
    { intros v w I0. apply in_combine_r in I0. unfold ones in I0. apply in_map_iff in I0. destruct I0 as (? & <- & _). reflexivity. }
    assert (FN : finite_or_nan (combine xt0 (ones T))).
    { intros v w I0. apply in_combine_l in I0. exact (Fin_c xt0 v Ct I0). }
    destruct (monotone_column p' (bins c) (b_eps b) (b_tol b) (combine xt0 (ones T)) K1 K2 K3 PW FN) as [Mi|(idx & M1 & M2 & M3 & tq & w & M4 & M5)];
      try (cbn; split; [discriminate|reflexivity]); try (cbn; discriminate); try lia.
    { apply enough_for; lia. }
    - assert (Gg : forall v, g v = MISSING). { intro v. specialize (HL [v]). rewrite Mi in HL. cbn in HL. congruence. }
      rewrite !Gg. unfold in_order. destruct up; apply Rle_refl.
    - assert (Gg : forall v, g v = number_bin idx v). { intro v. specialize (HL [v]). rewrite M1 in HL. cbn in HL. congruence. }
      rewrite !Gg. cbn [number_bin].
      assert (Tb : (Z.to_nat (idx tq) < f_finite f)%nat).
      { apply one_dim_bound; auto. apply in_combine_l in M4. apply In_nth_error in M4. destruct M4 as (n0 & N0).
        assert (L0 : (n0 < List.length xt0)%nat) by (apply nth_error_Some; congruence).
        specialize (Frow n0). rewrite map_cell in Frow by exact L0. rewrite (nth_error_nth _ _ NaN N0), Gg in Frow. apply Frow.
        rewrite LW, <- (proj2 TT c xt0 Ct). exact L0. }
      pose proof (M2 q q' Q) as Mq. pose proof (M5 q') as Mt. pose proof (M3 q) as Z1. pose proof (M3 q') as Z2.
      rewrite !(alone_value f fs a) by (auto; lia). apply (Fol (Z.to_nat (idx q)) (Z.to_nat (idx q'))). lia. }
  unfold in_order in *. destruct up.
  - apply output_le. apply Rplus_le_compat_l. apply group_sum_le. intros n m Hn. cbn [Nat.add]. apply Gsum. exact Hn.
  - apply output_le. apply Rplus_le_compat_l. apply group_sum_le. intros n m Hn. cbn [Nat.add]. apply Gsum. exact Hn.
Qed.
End Monotone.
