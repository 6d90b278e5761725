(** Pipelines on frames with a recoded column. *)
From Coq Require Import ZArith NArith QArith Qround List Bool Reals Lra Lia.
From Verif.Proofs Require Import NumFacts FnumOrder BinarySearchFacts FlagFacts EcdfFacts ReduceFacts FitFacts TransformFacts FrameFacts RefitFacts PipeFacts PipeRows ShuffleFacts RecodeColumn RecodeGroups RecodeFit.
From Verif.Model Require Import Num BinarySearch Flags Ecdf BinTransform Frames LexBins Train Predict Link Estimators WholeFit BinSmoothers Refit Pipe.
From Verif.Spec Require Import SearchSpec BinningSpec FrameSpec PipeSpec PredictSpec RelabelSpec RefitSpec ShuffleSpec RecodeSpec.
Import ListNotations.

(** *** Cells of learned columns. *)
Lemma column_numbers p f : fit_ok f -> check_flags_consistency p = FlagsOk ->
  (exists n eps tol zw, f = fit_column p n eps tol zw) ->
  exists g : fnum -> fnum, (forall x, transform_column p f x = Some (map g x)) /\ forall v, g v = MISSING \/ exists z, (0 <= z)%Z /\ g v = Fin (inject_Z z).
Proof.
  intros K Hc (n & eps & tol & zw & E). destruct f as [e|e bb cc| | |]; try contradiction.
  - exists (fun _ => MISSING). split; [reflexivity|auto].
  - assert (E2 : exists n, (2 <= n)%Z /\ fit_column p n eps tol zw = Fitted e bb cc).
    { destruct (Z_le_gt_dec 2 n) as [L|L]; [exists n; split; auto|].
      exists 2%Z. split; [lia|]. rewrite E. unfold fit_column in *.
      destruct (z_unique zw) as [|b0 bx]; [discriminate|].
      destruct (cdf_values zw) as [|c0 cx]; [discriminate|].
      destruct (is_ordered_set p || is_unordered_set p); [reflexivity|].
      exfalso. unfold reduce_cdf in E.
      replace (n <? 2)%Z with true in E by (symmetry; apply Z.ltb_lt; lia). discriminate. }
    destruct E2 as (m & M & E2). exists (tvalue p e (tl bb)).
    split; [intro x; apply (fitted_transform p m eps tol zw e bb cc x Hc M E2)|].
    destruct (fitted_transform p m eps tol zw e bb cc [] Hc M E2) as [_ Hs].
    pose proof (fit_column_shape p m eps tol zw M) as S. rewrite E2 in S. destruct S as (_ & _ & _ & Hne & Hd).
    intro x. unfold tvalue. destruct (is_finite_prop p x) eqn:Ef; [|auto]. pose proof (is_finite_prop_finite _ _ Ef) as Ef'.
    destruct (is_continuous_set p) eqn:Ec.
    + destruct (Z.eq_dec (cont_index (tl bb) e x) (-1)) as [H1|H1]; [left; rewrite H1; reflexivity|].
      right. exists (cont_index (tl bb) e x). split; [|reflexivity]. destruct (cont_index_range (tl bb) e x Hs) as [H|[_ H]]; lia.
    + assert (Hnt : tl bb <> []).
      { apply Hd. rewrite (consistent_kind _ Hc) in Ec. destruct (_ || _); [reflexivity|discriminate]. }
      destruct (disc_value_spec (tl bb) e x Hs Hnt) as [_ [H|(i & zi & _ & Hi & _ & _ & H)]];
        [apply fle_refl; destruct x; discriminate| |]; rewrite H; [auto|].
      right. exists i. split; [lia|reflexivity].
Qed.

(** *** Frames with one column mapped. *)
Section Mapped.
Variable c : label.
Definition mapped (h : fnum -> fnum) (X : frame) : frame :=
  {| fr_df := fr_df X; fr_float := fr_float X; fr_index := fr_index X;
     fr_cols := map (fun cv => (fst cv, if label_eqb (fst cv) c then map h (snd cv) else snd cv)) (fr_cols X) |}.
Lemma mapped_labels h X : labels (mapped h X) = labels X.
Proof. unfold labels, mapped. cbn [fr_cols]. rewrite map_map. reflexivity. Qed.
Lemma mapped_get h X d : get_column (fr_cols (mapped h X)) d = if label_eqb d c then option_map (map h) (get_column (fr_cols X) d) else get_column (fr_cols X) d.
Proof.
  unfold mapped. cbn [fr_cols]. induction (fr_cols X) as [|[e v] r IH]; cbn [map get_column fst snd].
  - destruct (label_eqb d c); reflexivity.
  - destruct (label_eqb e d) eqn:E; [|exact IH]. apply label_eqb_iff in E. subst e. destruct (label_eqb d c); reflexivity.
Qed.
Lemma mapped_empty h X : table X -> frame_empty X = true -> mapped h X = X.
Proof.
  intros TX E. destruct X as [df fl ix cols]. unfold mapped. cbn [fr_df fr_float fr_index fr_cols]. f_equal.
  rewrite (map_ext_in _ (fun x => x)); [apply map_id|]. intros [d v] I. cbn [fst snd]. rewrite (empty_columns _ d v TX E I). destruct (label_eqb d c); reflexivity.
Qed.
Lemma mapped_nil h X : frame_empty (mapped h X) = frame_empty X.
Proof. unfold frame_empty, mapped. cbn [fr_index fr_cols]. destruct (fr_cols X); reflexivity. Qed.
Lemma set_mapped_other h X d v : label_eqb d c = false -> set_column (mapped h X) d v = mapped h (set_column X d v).
Proof.
  intro Hd. unfold set_column, mapped. cbn [fr_df fr_float fr_index fr_cols]. f_equal.
  induction (fr_cols X) as [|[e w] r IH]; cbn [map put_column fst snd]; [rewrite Hd; reflexivity|].
  destruct (label_eqb e d) eqn:E; cbn [map fst snd]; [|f_equal; exact IH]. apply label_eqb_iff in E. subst e. rewrite Hd. reflexivity.
Qed.
Lemma set_mapped h h' X v : NoDup (labels X) -> In c (labels X) -> set_column (mapped h X) c (map h' v) = mapped h' (set_column X c v).
Proof.
  unfold labels. intros ND I. unfold set_column, mapped. cbn [fr_df fr_float fr_index fr_cols]. f_equal.
  induction (fr_cols X) as [|[e w] r IH]; cbn [map fst snd] in *; [contradiction|]. cbn [put_column].
  apply NoDup_cons_iff in ND. destruct ND as [N1 N2]. destruct (label_eqb e c) eqn:E; cbn [map fst snd].
  - rewrite E. f_equal. apply map_ext_in. intros [d u] J. cbn [fst snd]. rewrite label_eqb_neq; [reflexivity|].
    intros ->. apply label_eqb_iff in E. subst e. apply N1. change c with (fst (c, u)). apply in_map. exact J.
  - rewrite E. f_equal. apply IH; auto. destruct I as [->|I]; auto. rewrite label_eqb_refl in E. discriminate.
Qed.

(** Applying the transformer to them. *)
Lemma loop_other props h fits : ~ In c (map fst fits) -> forall X,
  transform_loop props fits (mapped h X) = (fst (transform_loop props fits X), mapped h (snd (transform_loop props fits X))).
Proof.
  induction fits as [|[d g] r IH]; intros N X; [reflexivity|]. cbn [map fst In] in N. cbn [transform_loop].
  assert (E : label_eqb d c = false) by (apply label_eqb_neq; intros ->; apply N; auto).
  destruct (binning_feature_property props d) as [|q|e]; [apply IH; auto| |reflexivity].
  rewrite mapped_get, E. destruct (get_column (fr_cols X) d) as [x|]; [|reflexivity].
  destruct (transform_column q g x) as [v|]; [|reflexivity]. rewrite set_mapped_other by exact E. apply IH. auto.
Qed.
Definition refitted (ft' : fit_result) (l : list (label * fit_result)) : list (label * fit_result) :=
  map (fun cf => (fst cf, if label_eqb (fst cf) c then ft' else snd cf)) l.
Lemma refitted_other ft' l : ~ In c (map fst l) -> refitted ft' l = l.
Proof.
  intro H. unfold refitted. rewrite (map_ext_in _ (fun x => x)); [apply map_id|].
  intros [d v] I. cbn [fst snd]. rewrite label_eqb_neq; [reflexivity|]. intros ->. apply H. apply in_map_iff. exists (c, v). auto.
Qed.
Lemma loop_mapped props p ft' h h' : binning_feature_property props c = Prop_ p ->
  forall fits X, NoDup (map fst fits) -> In c (map fst fits) -> NoDup (labels X) ->
  (forall g x, In (c, g) fits -> get_column (fr_cols X) c = Some x -> transform_column p ft' (map h x) = option_map (map h') (transform_column p g x)) ->
  let r := transform_loop props fits X in let r' := transform_loop props (refitted ft' fits) (mapped h X) in
  fst r' = fst r /\ (fst r = None -> snd r' = mapped h' (snd r)).
Proof.
  intro Hp. cbv zeta. induction fits as [|[d g] r IH]; intros X ND I NX Ht; [contradiction|].
  cbn [map fst] in ND, I. apply NoDup_cons_iff in ND. destruct ND as [N1 N2].
  cbn [refitted map transform_loop fst snd]. fold (refitted ft' r). destruct (label_eqb d c) eqn:E.
  - apply label_eqb_iff in E. subst d. rewrite Hp, mapped_get, label_eqb_refl.
    destruct (get_column (fr_cols X) c) as [x|] eqn:Ex; cbn [option_map]; [|split; [reflexivity|discriminate]].
    rewrite (Ht g x (or_introl eq_refl) eq_refl). destruct (transform_column p g x) as [v|]; cbn [option_map]; [|split; [reflexivity|discriminate]].
    rewrite set_mapped by (auto; apply get_in in Ex; apply in_map_iff; exists (c, x); auto).
    rewrite refitted_other by exact N1. rewrite loop_other by exact N1. auto.
  - assert (I' : In c (map fst r)) by (destruct I as [->|I]; auto; rewrite label_eqb_refl in E; discriminate).
    assert (Hr : forall g0 x, In (c, g0) r -> get_column (fr_cols X) c = Some x -> transform_column p ft' (map h x) = option_map (map h') (transform_column p g0 x)).
    { intros g0 x Hg. apply Ht. right. auto. }
    destruct (binning_feature_property props d) as [|q|e]; [apply IH; auto| |split; [reflexivity|discriminate]].
    rewrite mapped_get, E. destruct (get_column (fr_cols X) d) as [x|] eqn:Ex; [|split; [reflexivity|discriminate]].
    destruct (transform_column q g x) as [v|]; [|split; [reflexivity|discriminate]]. rewrite set_mapped_other by exact E. apply IH; auto.
    + unfold labels in *. cbn [set_column fr_cols]. rewrite put_labels; auto. apply get_in in Ex. apply in_map_iff. exists (d, x). auto.
    + intros g0 x0 Hg Hx0. apply Hr; auto. cbn [set_column fr_cols] in Hx0. rewrite get_put, E in Hx0. auto.
Qed.
Lemma transform_mapped b p ft' h h' X : b_fitted b <> None -> binning_feature_property (b_props b) c = Prop_ p ->
  NoDup (map fst (fitted_of b)) -> In c (map fst (fitted_of b)) -> table X ->
  (forall g x, In (c, g) (fitted_of b) -> get_column (fr_cols X) c = Some x -> transform_column p ft' (map h x) = option_map (map h') (transform_column p g x)) ->
  fst (bin_transform (with_fitted b (refitted ft' (fitted_of b))) (mapped h X)) =
  match fst (bin_transform b X) with FOk R => FOk (mapped h' R) | FErr e => FErr e end.
Proof.
  intros Hb Hp ND I TX Ht. unfold bin_transform, check_input. destruct (b_fitted b) as [fits|] eqn:Ef; [|congruence].
  assert (Eo : fitted_of b = fits) by (unfold fitted_of; rewrite Ef; reflexivity).
  cbn [with_fitted b_fitted b_props b_weight b_inplace fitted_of]. unfold fitted_of in *. rewrite Ef in *. cbn [b_fitted with_fitted].
  unfold feature_labels. rewrite mapped_labels. assert (El : List.length (refitted ft' fits) = List.length fits) by apply map_length. rewrite El.
  destruct (Nat.eqb _ _); [|reflexivity]. rewrite mapped_nil. destruct (frame_empty X) eqn:Em.
  - rewrite (mapped_empty h) by auto. destruct (fr_df X); [|cbn [fst]; rewrite mapped_empty by auto; reflexivity].
    assert (Ex : forallb (fun cf => has_label X (fst cf)) (refitted ft' fits) = forallb (fun cf => has_label X (fst cf)) fits).
    { clear. unfold refitted. induction fits as [|[d g] r IH]; cbn; auto. rewrite IH. reflexivity. }
    rewrite Ex. destruct (forallb _ fits); cbn [fst]; [rewrite mapped_empty by auto|]; reflexivity.
  - destruct (loop_mapped (b_props b) p ft' h h' Hp fits X ND I (proj1 TX) Ht) as [L1 L2].
    destruct (transform_loop (b_props b) fits X) as [[e|] R]; destruct (transform_loop (b_props b) (refitted ft' fits) (mapped h X)) as [[e'|] R']; cbn [fst snd] in *; try discriminate.
    + congruence.
    + rewrite L2 by auto. reflexivity.
Qed.
End Mapped.

(** *** Fitting the transformer. *)
Lemma fit_loop_recoded b X ws c f p t : get_column (fr_cols X) c = Some t ->
  (binning_feature_property (b_props b) c = Prop_ p -> 
     fit_ok (fit_column p (b_bins b c) (b_eps b) (b_tol b) (combine t ws)) /\ fit_ok (fit_column p (b_bins b c) (b_eps b) (b_tol b) (combine (map (on_values f) t) ws))) ->
  (forall q, binning_feature_property (b_props b) c = Prop_ q -> q = p) ->
  forall cols, fit_loop b (rescaled c f X) ws cols =
    match fit_loop b X ws cols with
    | FOk l => FOk (refitted c (fit_column p (b_bins b c) (b_eps b) (b_tol b) (combine (map (on_values f) t) ws)) l)
    | FErr e => FErr e
    end.
Proof.
  intros Gt Ok Un. induction cols as [|d r IH]; [reflexivity|]. cbn [fit_loop].
  rewrite rescaled_cols, scale_get. destruct (label_eqb d c) eqn:E.
  - apply label_eqb_iff in E. subst d. rewrite Gt. cbn [option_map].
    destruct (binning_feature_property (b_props b) c) as [|q|e] eqn:Eq; [exact IH| |reflexivity].
    rewrite (Un q eq_refl) in *. destruct (Ok eq_refl) as [O1 O2].
    destruct (fit_column p (b_bins b c) (b_eps b) (b_tol b) (combine t ws)) eqn:E1; try contradiction;
      destruct (fit_column p (b_bins b c) (b_eps b) (b_tol b) (combine (map (on_values f) t) ws)) eqn:E2; try contradiction;
      rewrite IH; destruct (fit_loop b X ws r); cbn [refitted map fst snd]; rewrite ?label_eqb_refl; reflexivity.
  - destruct (get_column (fr_cols X) d) as [x|]; [|reflexivity].
    destruct (binning_feature_property (b_props b) d) as [|q|e]; [exact IH| |reflexivity].
    destruct (fit_column q (b_bins b d) (b_eps b) (b_tol b) (combine x ws)); try reflexivity;
      rewrite IH; destruct (fit_loop b X ws r); cbn [refitted map fst snd]; rewrite ?E; reflexivity.
Qed.
Lemma same_ones (t : list fnum) (ix : list Z) : List.length t = List.length ix -> map (fun _ => 1%Q) ix = map (fun _ => 1%Q) t.
Proof. revert ix. induction t as [|a t IH]; intros [|i ix] L; try discriminate; [reflexivity|]. cbn. f_equal. apply IH. cbn in L. lia. Qed.

(** *** Targets and feature columns. *)
Lemma mapped_read c h (X : frame) d : d <> c -> get_column (fr_cols (mapped c h X)) d = get_column (fr_cols X) d.
Proof. intro N. rewrite mapped_get, label_eqb_neq by exact N. reflexivity. Qed.
Lemma mapped_weights c h weight X : weight <> Some c -> read_weights weight (mapped c h X) = read_weights weight X.
Proof. intro N. unfold read_weights. destruct weight as [d|]; [|reflexivity]. rewrite mapped_read by congruence. reflexivity. Qed.
Lemma mapped_priors c h prior X : prior <> Some c -> read_priors prior (mapped c h X) = read_priors prior X.
Proof. intro N. unfold read_priors. destruct prior as [d|]; [|reflexivity]. rewrite mapped_read by congruence. reflexivity. Qed.
Lemma mapped_features c tau weight prior X : feature_columns weight prior (mapped c (relabel_number tau) X) = rec_cols c tau (feature_columns weight prior X).
Proof.
  unfold feature_columns, mapped, rec_cols. cbn [fr_cols]. induction (fr_cols X) as [|[d v] r IH]; [reflexivity|]. cbn [map filter fst snd].
  destruct (_ && _); cbn [map fst snd]; rewrite IH; reflexivity.
Qed.
Lemma targets_length weight prior X y T : table X -> List.length y = List.length (fr_index X) -> train_targets weight prior X y = Some T -> List.length T = List.length (fr_index X).
Proof.
  intros TX L E. refine (proj2 (taken_targets weight prior X y (seq 0 (List.length (fr_index X))) TX _ L) T E).
  unfold order_of_rows. apply Permutation.Permutation_refl.
Qed.

Lemma binned_column b T b' Y Yt d x : table T -> table Y -> bin_fit b T = FOk b' -> fst (bin_transform b' Y) = FOk Yt ->
  get_column (fr_cols Yt) d = Some x -> exists x0, column_is Y d x0 /\
    forall p q g, learned b T d p q -> (forall l, transform_column p q l = Some (map g l)) -> x = map g x0.
Proof.
  intros TT TY F E G. destruct (bin_transform b' Y) as [? ?] eqn:H. cbn in E. subst.
  destruct (transform_columns _ _ _ _ _ _ TT TY F H) as [(S1 & S2 & S3) C].
  assert (NX : NoDup (labels Yt)) by (rewrite S3; apply TY). pose proof G as G0. apply get_in in G.
  assert (I : In d (labels Y)) by (rewrite <- S3; change d with (fst (d, x)); apply in_map; exact G).
  apply in_map_iff in I. destruct I as ([d0 x0] & E1 & I). cbn in E1. subst d0. exists x0. split; [exact I|].
  intros p q g L Hg. destruct (C d x0 I) as [C1 _]. destruct (C1 p q L) as (v & V1 & V2). rewrite Hg in V2. injection V2 as <-.
  apply (get_of_in _ _ _ NX) in V1. congruence.
Qed.
Lemma learned_numbers b T b' d p q : table T -> bin_fit b T = FOk b' -> learned b T d p q ->
  exists g : fnum -> fnum, (forall x, transform_column p q x = Some (map g x)) /\ forall v, g v = MISSING \/ exists z, (0 <= z)%Z /\ g v = Fin (inject_Z z).
Proof.
  intros TT F L. destruct (bin_fit_spec _ _ _ (proj1 TT) F) as (_ & _ & _ & l & _ & B5 & B6 & B7 & _).
  assert (I : In d (map fst l)) by (apply B6; destruct L as (t & ws & _ & Fc & _); eauto).
  apply in_map_iff in I. destruct I as ([d0 q'] & E1 & I). cbn in E1. subst d0. destruct (B7 d q' I) as (K & p' & P & L').
  destruct (learned_unique _ _ _ _ _ _ _ (proj1 TT) L L') as [<- <-]. apply property_declares in P. destruct P as [_ P].
  apply column_numbers; auto. destruct L as (t & ws & _ & _ & _ & ->). eauto 10.
Qed.
Lemma number_integral x : x = MISSING \/ (exists z, (0 <= z)%Z /\ x = Fin (inject_Z z)) -> integral x.
Proof. intros [-> |(z & _ & ->)] _; [exists (-1)%Z; reflexivity|eauto]. Qed.

Section Recode.
Variable gamma_median : R -> R.
Variable beta_ppf : R -> R -> R -> R.
Variable erfinv : R -> R.
Variable bad : R.
Variable k : kind.
Variables weight prior : option label.
Variable cfg : settings.
Variable rate : nat -> nat -> R.
Variable accepted : list target -> bool.
Variable style : list label -> group.
Hypothesis dims : one_dimension_each style.
Variable bins : label -> Z.
Variable props : option (label -> option N).
Variable inplace : bool.
Notation run := (pipe_fit gamma_median beta_ppf erfinv bad k weight prior cfg rate accepted style).
Notation ask := (pipe_predict k weight prior).

Lemma pipe_recoded fuel o c f X y t e P1 e' P1' :
  categorical_column props c -> one_to_one f -> (2 <= bins c)%Z -> weight <> Some c -> prior <> Some c ->
  (has_prior prior = true -> forall a, k <> GBSRegressor a) ->
  table X -> column_is X c t -> codes_or_missing t -> List.length y = List.length (fr_index X) ->
  (forall names, group_with o c names ->
     (names = [c] \/ seen_together (pipeline_binner bins props inplace) X names c t) /\
     (label_free (g_smoother (style names)) \/ label_free_but_first (g_smoother (style names)) /\ keeps_first f t)) ->
  run fuel {| l_binner := pipeline_binner bins props inplace; l_object := o |} X y = (e, P1) ->
  run fuel {| l_binner := pipeline_binner bins props inplace; l_object := o |} (rescaled c f X) y = (e', P1') ->
  e = e' /\
  (e = None -> b_scale (l_object P1') = b_scale (l_object P1) /\ b_iter (l_object P1') = b_iter (l_object P1) /\ b_loss (l_object P1') = b_loss (l_object P1) /\
     forall Y, table Y -> (forall x v, column_is Y c x -> In v x -> known_or_new f t v) -> ask P1' (rescaled c f Y) = ask P1 Y).
Proof.
  intros (p & Dp & Cp & Mp) Hf Hn Wc Pc NG TX Ct Cm Ly Gr E1 E2. unfold pipe_fit in E1, E2. cbn [l_binner l_object] in E1, E2.
  set (b := pipeline_binner bins props inplace) in *.
  assert (Gt : get_column (fr_cols X) c = Some t) by (apply get_of_in; [apply TX|exact Ct]).
  set (ws := map (fun _ => 1%Q) t). assert (Ew : map (fun _ => 1%Q) (fr_index X) = ws) by (apply same_ones; apply (proj2 TX c t Ct)).
  set (ft := fit_column p (bins c) (1 # 1000000000) (1 # 10) (combine t ws)).
  set (ft' := fit_column p (bins c) (1 # 1000000000) (1 # 10) (combine (map (on_values f) t) ws)).
  assert (FB : bin_fit b (rescaled c f X) = match bin_fit b X with FOk b1 => FOk (with_fitted b1 (refitted c ft' (fitted_of b1))) | FErr er => FErr er end).
  { unfold bin_fit. assert (Ee : frame_empty (rescaled c f X) = frame_empty X) by apply (mapped_nil c). rewrite Ee. destruct (frame_empty X); [reflexivity|].
    cbn [b b_weight pipeline_binner frame_weights]. unfold feature_labels. rewrite rescaled_labels. cbn [fr_index rescaled]. rewrite Ew.
    rewrite (fit_loop_recoded b X ws c f p t Gt).
    - destruct (fit_loop b X ws _); reflexivity.
    - intro Pr. apply property_declares in Pr. destruct Pr as [_ Fl].
      destruct (recoded_column p (bins c) (1 # 10) t f Fl Cp Mp Hn Cm Hf) as (O1 & O2 & _). split; assumption.
    - intros q Q. apply property_declares in Q. destruct Q as [Q _]. unfold declares in *. cbn [b b_props pipeline_binner] in Q. destruct props; congruence. }
  rewrite FB in E2. destruct (bin_fit b X) as [b1|er] eqn:F.
  2:{ injection E1 as <- <-. injection E2 as <- <-. split; [reflexivity|discriminate]. }
  destruct (bin_fit_spec _ _ _ (proj1 TX) F) as (B1 & B2 & B3 & l & B4 & B5 & B6 & B7 & _).
  assert (Eo : fitted_of b1 = l) by (unfold fitted_of; rewrite B4; reflexivity).
  assert (Fc : feature_column b X c p).
  { split; [change c with (fst (c, t)); apply in_map; exact Ct|]. split; [discriminate|exact Dp]. }
  assert (Lc : learned b X c p ft).
  { exists t, ws. split; [exact Ct|]. split; [exact Fc|]. split; [cbn; symmetry; exact Ew|reflexivity]. }
  assert (Il : In c (map fst l)) by (apply B6; eauto).
  assert (Pr : binning_feature_property (b_props b) c = Prop_ p).
  { pose proof Il as I. apply in_map_iff in I. destruct I as ([d0 q'] & Ed & I). cbn in Ed. subst d0. destruct (B7 c q' I) as (K & p' & P & L').
    destruct (learned_unique _ _ _ _ _ _ _ (proj1 TX) Lc L') as [<- <-]. exact P. }
  assert (Fl : check_flags_consistency p = FlagsOk) by (apply property_declares in Pr; tauto).
  destruct (recoded_column p (bins c) (1 # 10) t f Fl Cp Mp Hn Cm Hf) as (O1 & O2 & g & g' & kc & tau & Tg & Tg' & Rc).
  fold ws in Tg, Tg'. fold ft in Tg. fold ft' in Tg'.
  assert (Kn : forall v, In v t -> known_or_new f t v).
  { intros v I. destruct (Cm v I) as [-> |[q ->]]; cbn; auto. left. exists q. split; auto. apply Qeq_refl. }
  assert (TrY : forall Y, table Y -> (forall x v, column_is Y c x -> In v x -> known_or_new f t v) ->
    fst (bin_transform (with_fitted b1 (refitted c ft' (fitted_of b1))) (rescaled c f Y)) =
    match fst (bin_transform b1 Y) with FOk Yt => FOk (mapped c (relabel_number tau) Yt) | FErr er => FErr er end).
  { intros Y TY HY. apply (transform_mapped c b1 p ft' (on_values f)).
    - congruence.
    - rewrite B1. exact Pr.
    - rewrite Eo. exact B5.
    - rewrite Eo. exact Il.
    - exact TY.
    - rewrite Eo. intros q x I G. destruct (B7 c q I) as (K & p' & P & L'). destruct (learned_unique _ _ _ _ _ _ _ (proj1 TX) Lc L') as [<- <-].
      rewrite Tg, Tg'. cbn [option_map]. f_equal. rewrite !map_map. apply map_ext_in. intros v J. apply (rc_cell _ _ _ _ _ _ Rc). apply (HY x); auto. apply get_in. exact G. }
  rewrite (TrY X TX) in E2 by (intros x v I J; apply Kn; apply (get_of_in _ _ _ (proj1 TX)) in I; rewrite Gt in I; injection I as <-; exact J).
  cbv zeta in E1, E2. destruct (fst (bin_transform b1 X)) as [Xt|er] eqn:Et.
  2:{ injection E1 as <- <-. injection E2 as <- <-. split; [reflexivity|discriminate]. }
  destruct (binned_table _ _ _ _ _ TX TX F Et) as [TXt EI].
  assert (ET : train_targets weight prior (mapped c (relabel_number tau) Xt) y = train_targets weight prior Xt y).
  { unfold train_targets. rewrite mapped_weights, mapped_priors by assumption. reflexivity. }
  rewrite ET in E2. destruct (train_targets weight prior Xt y) as [T|] eqn:Tt.
  2:{ injection E1 as <- <-. injection E2 as <- <-. split; [reflexivity|discriminate]. }
  rewrite mapped_features in E2.
  assert (LT : List.length T = List.length (fr_index X)) by (rewrite <- EI; apply (targets_length weight prior Xt y T TXt); auto; rewrite EI; exact Ly).
  (* feature columns and columns of the frame *)
  assert (Rd : forall Z d x, get_column (feature_columns weight prior Z) d = Some x -> get_column (fr_cols Z) d = Some x).
  { intros Z d x G. unfold feature_columns in G. rewrite (get_filter (fun d => negb (excluded prior d) && negb (excluded weight d))) in G. destruct (_ && _); congruence. }
  set (gl := default_groups o (feature_columns weight prior Xt)).
  assert (Gw : forall names, In names gl -> affected c kc names = true -> group_with o c names).
  { intros names I A. unfold affected in A. apply andb_prop in A. destruct A as [A _]. apply existsb_exists in A. destruct A as (d & Id & Ed). apply label_eqb_iff in Ed. subst d.
    split; [exact Id|]. unfold gl, default_groups in I. destruct (b_groups o); [exact I|]. apply in_map_iff in I. destruct I as (cv & <- & _).
    destruct Id as [-> |[]]. reflexivity. }
  assert (Kp : forall names, affected c kc names = true -> (0 < kc)%Z).
  { intros names A. unfold affected in A. apply andb_prop in A. destruct A as [_ A]. apply Z.ltb_lt in A. exact A. }
  (* cells of binned frames *)
  assert (Cells : forall Y Yt, table Y -> fst (bin_transform b1 Y) = FOk Yt -> askable c kc gl (feature_columns weight prior Yt)).
  { intros Y Yt TY EY. split.
    - intros x v G I. destruct (binned_column _ _ _ _ _ _ _ TX TY F EY (Rd _ _ _ G)) as (x0 & I0 & H0). rewrite (H0 p ft g Lc Tg) in I.
      apply in_map_iff in I. destruct I as (u & <- & _). intros _. apply (rc_whole _ _ _ _ _ _ Rc).
    - intros names d x v In1 A Id G I. destruct (binned_column _ _ _ _ _ _ _ TX TY F EY (Rd _ _ _ G)) as (x0 & I0 & H0).
      destruct (Gr names (Gw names In1 A)) as [[-> |Sn] _].
      + destruct Id as [<- |[]]. rewrite (H0 p ft g Lc Tg) in I. apply in_map_iff in I. destruct I as (u & <- & _). intros _. apply (rc_whole _ _ _ _ _ _ Rc).
      + destruct (rc_occurs _ _ _ _ _ _ Rc 0%Z) as (q & Iq & _); [specialize (Kp names A); lia|].
        destruct (Sn q Iq) as (j & _ & Sj). destruct (Sj d Id) as (pd & qd & xd & vd & Ld & _).
        destruct (learned_numbers _ _ _ _ _ _ TX F Ld) as (gd & Tgd & Nd). rewrite (H0 pd qd gd Ld Tgd) in I.
        apply in_map_iff in I. destruct I as (u & <- & _). apply number_integral. apply Nd. }
  assert (Trn : trainable style c tau kc gl (feature_columns weight prior Xt) (List.length T)).
  { split; [apply (Cells X Xt TX Et)|]. split.
    - intros x G. destruct (binned_column _ _ _ _ _ _ _ TX TX F Et (Rd _ _ _ G)) as (x0 & I0 & H0). rewrite (H0 p ft g Lc Tg).
      apply (get_of_in _ _ _ (proj1 TX)) in I0. rewrite Gt in I0. injection I0 as <-. split; [rewrite map_length, LT; apply (proj2 TX c t Ct)|].
      intros v I. apply in_map_iff in I. destruct I as (u & <- & I). apply (rc_range _ _ _ _ _ _ Rc). exact I.
    - intros names In1 A. destruct (Gr names (Gw names In1 A)) as [Sn Sm]. split.
      2:{ destruct Sm as [Sm|[Sm Kf]]; [left; exact Sm|right]. split; [exact Sm|]. apply (rc_first _ _ _ _ _ _ Rc). exact Kf. }
      intros z Hz. destruct (rc_occurs _ _ _ _ _ _ Rc z Hz) as (q & Iq & Eq). destruct Sn as [-> |Sn].
      + apply In_nth_error in Iq. destruct Iq as (j & Hj). exists j. split; [rewrite LT, <- (proj2 TX c t Ct); apply nth_error_Some; congruence|].
        intros d x [<- |[]] G. exists z. split; [lia|]. split; [|auto].
        destruct (binned_column _ _ _ _ _ _ _ TX TX F Et (Rd _ _ _ G)) as (x0 & I0 & H0). rewrite (H0 p ft g Lc Tg).
        apply (get_of_in _ _ _ (proj1 TX)) in I0. rewrite Gt in I0. injection I0 as <-.
        apply (nth_error_nth _ _ NaN). rewrite nth_error_map, Hj. cbn [option_map]. f_equal. exact Eq.
      + destruct (Sn q Iq) as (j & Hj & Sj). exists j. split; [rewrite LT, <- (proj2 TX c t Ct); apply nth_error_Some; congruence|].
        intros d x Id G. destruct (Sj d Id) as (pd & qd & xd & vd & Ld & Cd & Hd & Nm).
        destruct (learned_numbers _ _ _ _ _ _ TX F Ld) as (gd & Tgd & Nd).
        destruct (binned_column _ _ _ _ _ _ _ TX TX F Et (Rd _ _ _ G)) as (x0 & I0 & H0). rewrite (H0 pd qd gd Ld Tgd).
        apply (get_of_in _ _ _ (proj1 TX)) in I0, Cd. assert (x0 = xd) by congruence. subst x0.
        assert (En : nth j (map gd xd) NaN = gd vd) by (apply (nth_error_nth _ _ NaN); rewrite nth_error_map, Hd; reflexivity).
        rewrite Tgd in Nm. cbn [map] in Nm. destruct (Nd vd) as [M|(y0 & Hy & Ey)]; [exfalso; apply Nm; congruence|].
        exists y0. split; [exact Hy|]. split; [congruence|]. intros ->.
        destruct (learned_unique _ _ _ _ _ _ _ (proj1 TX) Lc Ld) as [<- <-]. assert (xd = t) by congruence. subst xd.
        assert (vd = Fin q) by congruence. subst vd. specialize (Tgd [Fin q]). rewrite Tg in Tgd. cbn [map] in Tgd.
        assert (X0 : Fin (inject_Z y0) = Fin (inject_Z z)) by congruence. injection X0 as X0. exact X0. }
  destruct (fit_recoded gamma_median beta_ppf erfinv bad k cfg rate accepted style dims c tau kc (rc_size _ _ _ _ _ _ Rc) (rc_perm _ _ _ _ _ _ Rc)
    (has_prior prior) fuel o (feature_columns weight prior Xt) T NG Trn) as [H1 H2].
  destruct (fit_object _ _ _ _ _ _ _ _ _ _ fuel o {| d_cols := feature_columns weight prior Xt; d_targets := T |}) as [[er|] o1];
    destruct (fit_object _ _ _ _ _ _ _ _ _ _ fuel o {| d_cols := rec_cols c tau _; d_targets := _ |}) as [[er'|] o2]; cbn [fst snd] in H1, H2; try discriminate.
  - injection E1 as <- <-. injection E2 as <- <-. injection H1 as ->. split; [reflexivity|discriminate].
  - injection E1 as <- <-. injection E2 as <- <-. split; [reflexivity|]. intros _. destruct (H2 eq_refl) as (V1 & V2 & V3 & V4). cbn [l_object].
    split; [exact V1|]. split; [exact V2|]. split; [exact V3|].
    intros Y TY HY. unfold pipe_predict. cbn [l_binner l_object]. rewrite (TrY Y TY HY).
    destruct (fst (bin_transform b1 Y)) as [Yt|] eqn:EY; [|reflexivity].
    assert (EP : predict_targets prior (mapped c (relabel_number tau) Yt) = predict_targets prior Yt) by (unfold predict_targets; rewrite mapped_priors by assumption; reflexivity).
    rewrite EP. destruct (predict_targets prior Yt); [|reflexivity]. rewrite mapped_features. apply V4. apply (Cells Y Yt TY EY).
Qed.
End Recode.
