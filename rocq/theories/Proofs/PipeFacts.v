(** Pipelines on frames with a column on another scale. *)
From Coq Require Import ZArith NArith QArith Qreals List Bool Reals String Lia.
From Verif.Model Require Import Num BinarySearch Flags Ecdf BinTransform Frames Refit Pipe.
From Verif.Spec Require Import SearchSpec BinningSpec FrameSpec PipeSpec.
From Verif.Proofs Require Import FlagFacts TransformFacts FrameFacts UnitFacts.
Import ListNotations.

Section Scale.
Variable c : label.
Variable f : Q -> Q.
Definition scale_cols (cols : list (label * list fnum)) : list (label * list fnum) :=
  map (fun cv => (fst cv, if label_eqb (fst cv) c then map (on_values f) (snd cv) else snd cv)) cols.
Lemma rescaled_cols X : fr_cols (rescaled c f X) = scale_cols (fr_cols X).
Proof. reflexivity. Qed.
Lemma scale_names cols : map fst (scale_cols cols) = map fst cols.
Proof. unfold scale_cols. rewrite map_map. reflexivity. Qed.
Lemma rescaled_labels X : labels (rescaled c f X) = labels X.
Proof. apply scale_names. Qed.
Lemma scale_get cols d : get_column (scale_cols cols) d =
  if label_eqb d c then option_map (map (on_values f)) (get_column cols d) else get_column cols d.
Proof.
  induction cols as [|[d0 v] r IH]; cbn [scale_cols map get_column fst snd].
  - destruct (label_eqb d c); reflexivity.
  - destruct (label_eqb d0 d) eqn:E; [|exact IH]. apply label_eqb_iff in E. subst d0.
    destruct (label_eqb d c); reflexivity.
Qed.
Lemma scale_put_other cols d v : label_eqb d c = false -> put_column (scale_cols cols) d v = scale_cols (put_column cols d v).
Proof.
  intro Hd. induction cols as [|[d0 w] r IH]; cbn [scale_cols map put_column fst snd].
  - rewrite Hd. reflexivity.
  - destruct (label_eqb d0 d) eqn:E; cbn [map fst snd].
    + apply label_eqb_iff in E. subst d0. rewrite Hd. reflexivity.
    + f_equal. exact IH.
Qed.
Lemma scale_other cols : ~ In c (map fst cols) -> scale_cols cols = cols.
Proof.
  intro H. unfold scale_cols. rewrite (map_ext_in _ (fun x => x)); [apply map_id|].
  intros [d v] Hin. cbn. rewrite label_eqb_neq; [reflexivity|]. intros ->. apply H. apply in_map_iff. exists (c, v). auto.
Qed.
Lemma scale_put cols v : NoDup (map fst cols) -> In c (map fst cols) -> put_column (scale_cols cols) c v = put_column cols c v.
Proof.
  induction cols as [|[d w] r IH]; intros Hn Hin; [contradiction|]. cbn [scale_cols map put_column fst snd] in *.
  apply NoDup_cons_iff in Hn. destruct Hn as [Hn Hr]. destruct (label_eqb d c) eqn:E.
  - apply label_eqb_iff in E. subst d. fold (scale_cols r). rewrite scale_other by auto. reflexivity.
  - f_equal. apply IH; auto. destruct Hin as [->|H]; auto. rewrite label_eqb_refl in E. discriminate.
Qed.
Lemma scale_empty cols : (forall d v, In (d, v) cols -> v = []) -> scale_cols cols = cols.
Proof.
  intro H. unfold scale_cols. rewrite (map_ext_in _ (fun x => x)); [apply map_id|].
  intros [d v] Hin. cbn. rewrite (H d v Hin). destruct (label_eqb d c); reflexivity.
Qed.
Lemma rescaled_empty X : table X -> frame_empty X = true -> rescaled c f X = X.
Proof.
  intros HX He. destruct X as [df fl idx cols]. unfold rescaled. cbn. f_equal. fold (scale_cols cols).
  apply scale_empty. intros d v Hin. apply (empty_columns _ d v HX He Hin).
Qed.
Lemma rescaled_table X : table X -> table (rescaled c f X).
Proof.
  intros [H1 H2]. split; [rewrite rescaled_labels; auto|]. intros d v Hin.
  rewrite rescaled_cols in Hin. apply in_map_iff in Hin. destruct Hin as ([d0 w] & E & Hin). cbn in E.
  injection E as <- <-. specialize (H2 d0 w Hin). cbn. destruct (label_eqb d0 c); rewrite ?map_length; auto.
Qed.

(** ** Fitting the transformer *)
Definition scale_fits (eps : Q) (l : list (label * fit_result)) : list (label * fit_result) :=
  map (fun cf => (fst cf, if label_eqb (fst cf) c then moved_fit f eps (snd cf) else snd cf)) l.
Lemma combine_moved x ws : combine (map (on_values f) x) ws = moved f (combine x ws).
Proof. revert ws. induction x as [|a r IH]; intros [|w ws]; cbn; auto. rewrite IH. reflexivity. Qed.

Definition scaled_ok (eps : Q) (r : fresult (list (label * fit_result))) : fresult (list (label * fit_result)) :=
  match r with FOk l => FOk (scale_fits eps l) | FErr e => FErr e end.
Lemma fit_loop_scaled b X ws cols p : order_preserving f ->
  declares (b_props b) c p ->
  fit_loop b (rescaled c f X) ws cols = scaled_ok (b_eps b) (fit_loop b X ws cols).
Proof.
  intros Hf Hd. induction cols as [|d r IH]; [reflexivity|]. cbn [fit_loop].
  rewrite rescaled_cols, scale_get. destruct (label_eqb d c) eqn:E.
  - apply label_eqb_iff in E. subst d. destruct (get_column (fr_cols X) c) as [x|]; cbn [option_map]; [|reflexivity].
    destruct (binning_feature_property (b_props b) c) as [|q|e] eqn:Eq; [exact IH| |reflexivity].
    apply property_declares in Eq. destruct Eq as [Eq Eo].
    assert (q = p). { unfold declares in *. destruct (b_props b); congruence. } subst q.
    rewrite combine_moved, (fit_u f Hf).
    destruct (fit_column p (b_bins b c) (b_eps b) (b_tol b) (combine x ws)); cbn [moved_fit]; try reflexivity;
      rewrite IH; destruct (fit_loop b X ws r); cbn [scaled_ok scale_fits map fst snd moved_fit]; rewrite ?label_eqb_refl; reflexivity.
  - destruct (get_column (fr_cols X) d) as [x|]; [|reflexivity].
    destruct (binning_feature_property (b_props b) d) as [|q|e]; [exact IH| |reflexivity].
    destruct (fit_column q (b_bins b d) (b_eps b) (b_tol b) (combine x ws)); try reflexivity;
      rewrite IH; destruct (fit_loop b X ws r); cbn [scaled_ok scale_fits map fst snd]; rewrite ?E; reflexivity.
Qed.

Lemma bin_fit_scaled b X p : order_preserving f -> b_weight b = None ->
  declares (b_props b) c p ->
  bin_fit b (rescaled c f X) =
  match bin_fit b X with
  | FOk b' => FOk (with_fitted b (scale_fits (b_eps b) (fitted_of b')))
  | FErr e => FErr e
  end.
Proof.
  intros Hf Hw Hd. unfold bin_fit.
  assert (Ee : frame_empty (rescaled c f X) = frame_empty X) by (unfold frame_empty; cbn; destruct (fr_cols X); reflexivity).
  rewrite Ee. destruct (frame_empty X); [reflexivity|]. rewrite Hw. cbn [frame_weights].
  unfold feature_labels. rewrite rescaled_labels.
  rewrite (fit_loop_scaled b X _ _ p) by auto. cbn [fr_index rescaled].
  destruct (fit_loop b X _ _); reflexivity.
Qed.

(** ** Applying it *)
Lemma scale_fits_other eps l : ~ In c (map fst l) -> scale_fits eps l = l.
Proof.
  intro H. unfold scale_fits. rewrite (map_ext_in _ (fun x => x)); [apply map_id|].
  intros [d v] Hin. cbn. rewrite label_eqb_neq; [reflexivity|]. intros ->. apply H. apply in_map_iff. exists (c, v). auto.
Qed.

Lemma transform_loop_scaled props eps p : binning_feature_property props c = Prop_ p ->
  forall fits X, NoDup (map fst fits) -> In c (map fst fits) -> NoDup (labels X) ->
  (forall g x, In (c, g) fits -> get_column (fr_cols X) c = Some x ->
     transform_column p (moved_fit f eps g) (map (on_values f) x) = transform_column p g x) ->
  match transform_loop props fits X with
  | (None, R) => transform_loop props (scale_fits eps fits) (rescaled c f X) = (None, R)
  | (Some e, _) => fst (transform_loop props (scale_fits eps fits) (rescaled c f X)) = Some e
  end.
Proof.
  intro Hp. induction fits as [|[d g] r IH]; intros X Hn Hin HX Ht; [contradiction|].
  cbn [map fst] in Hn, Hin. apply NoDup_cons_iff in Hn. destruct Hn as [Hd Hn].
  cbn [scale_fits map transform_loop fst snd]. fold (scale_fits eps r). destruct (label_eqb d c) eqn:E.
  - apply label_eqb_iff in E. subst d. rewrite Hp, rescaled_cols, scale_get, label_eqb_refl.
    destruct (get_column (fr_cols X) c) as [x|] eqn:Ex; cbn [option_map]; [|reflexivity].
    rewrite (Ht g x (or_introl eq_refl) eq_refl).
    destruct (transform_column p g x) as [v|]; [|reflexivity].
    assert (Es : set_column (rescaled c f X) c v = set_column X c v).
    { unfold set_column. cbn [fr_df fr_float fr_index fr_cols rescaled]. f_equal. fold (scale_cols (fr_cols X)).
      apply scale_put; auto. apply get_in in Ex. apply in_map_iff. exists (c, x). auto. }
    rewrite Es, scale_fits_other by auto. destruct (transform_loop props r _) as [[e|] R]; reflexivity.
  - assert (Hin' : In c (map fst r)).
    { destruct Hin as [->|H]; auto. rewrite label_eqb_refl in E. discriminate. }
    assert (Hr : forall g0 x, In (c, g0) r -> get_column (fr_cols X) c = Some x ->
       transform_column p (moved_fit f eps g0) (map (on_values f) x) = transform_column p g0 x).
    { intros g0 x Hg. apply Ht. right; auto. }
    destruct (binning_feature_property props d) as [|q|e]; [apply (IH X); auto| |reflexivity].
    rewrite rescaled_cols, scale_get, E. destruct (get_column (fr_cols X) d) as [x|] eqn:Ex; [|reflexivity].
    destruct (transform_column q g x) as [v|]; [|reflexivity].
    assert (Es : set_column (rescaled c f X) d v = rescaled c f (set_column X d v)).
    { unfold set_column, rescaled. cbn [fr_df fr_float fr_index fr_cols]. f_equal.
      fold (scale_cols (fr_cols X)). fold (scale_cols (put_column (fr_cols X) d v)). apply scale_put_other; auto. }
    rewrite Es. apply IH; auto.
    + unfold labels in *. cbn [set_column fr_cols]. rewrite put_labels; auto.
      apply get_in in Ex. apply in_map_iff. exists (d, x). auto.
    + intros g0 x0 Hg Hx0. apply Hr; auto. cbn [set_column fr_cols] in Hx0. rewrite get_put, E in Hx0. auto.
Qed.

Lemma bin_transform_scaled b b' X p : b_fitted b <> None -> b_props b' = b_props b -> b_weight b' = b_weight b ->
  b_inplace b' = b_inplace b -> (exists eps, b_fitted b' = Some (scale_fits eps (fitted_of b)) /\
  forall g x, In (c, g) (fitted_of b) -> get_column (fr_cols X) c = Some x ->
     transform_column p (moved_fit f eps g) (map (on_values f) x) = transform_column p g x) ->
  binning_feature_property (b_props b) c = Prop_ p -> NoDup (map fst (fitted_of b)) -> In c (map fst (fitted_of b)) -> table X ->
  fst (bin_transform b' (rescaled c f X)) = fst (bin_transform b X).
Proof.
  intros Hb Ep Ew Ei (eps & Ef & Ht) Hp Hn Hin HX. unfold bin_transform, check_input.
  destruct (b_fitted b) as [fits|] eqn:Efit; [|congruence]. rewrite Ef.
  assert (Eo : fitted_of b = fits) by (unfold fitted_of; rewrite Efit; reflexivity).
  assert (Eo' : fitted_of b' = scale_fits eps fits) by (unfold fitted_of; rewrite Ef, Eo; reflexivity).
  rewrite Eo, Eo', Ep, Ew, Ei in *. unfold feature_labels. rewrite rescaled_labels.
  assert (El : List.length (scale_fits eps fits) = List.length fits) by apply map_length. rewrite El.
  destruct (Nat.eqb _ _); [|reflexivity].
  assert (Ee : frame_empty (rescaled c f X) = frame_empty X) by (unfold frame_empty; cbn; destruct (fr_cols X); reflexivity).
  rewrite Ee. destruct (frame_empty X) eqn:Em.
  - rewrite rescaled_empty by auto. destruct (fr_df X); [|reflexivity].
    assert (Ex : forallb (fun cf => has_label X (fst cf)) (scale_fits eps fits) = forallb (fun cf => has_label X (fst cf)) fits).
    { clear. unfold scale_fits. induction fits as [|[d g] r IH]; cbn; auto. rewrite IH. reflexivity. }
    rewrite Ex. destruct (forallb _ fits); reflexivity.
  - pose proof (transform_loop_scaled (b_props b) eps p Hp fits X Hn Hin (proj1 HX) Ht) as L.
    destruct (transform_loop (b_props b) fits X) as [[e|] R].
    + destruct (transform_loop (b_props b) (scale_fits eps fits) (rescaled c f X)) as [o R']. cbn in L. subst o. reflexivity.
    + rewrite L. reflexivity.
Qed.
End Scale.
