(** Facts about the binning transformers on frames. *)
From Coq Require Import ZArith NArith QArith List Bool String Lia Permutation.
From Verif.Model Require Import Num BinarySearch Flags Ecdf BinTransform Frames.
From Verif.Spec Require Import FlagSpec SearchSpec BinningSpec FrameSpec.
From Verif.Proofs Require Import NumFacts FlagFacts EcdfFacts TransformFacts.
Import ListNotations.

Lemma label_eqb_iff a b : label_eqb a b = true <-> a = b.
Proof.
  destruct a as [s|m], b as [t|n]; cbn [label_eqb]; try (split; congruence).
  - rewrite String.eqb_eq. split; congruence.
  - rewrite Nat.eqb_eq. split; congruence.
Qed.
Lemma label_eqb_refl a : label_eqb a a = true.
Proof. apply label_eqb_iff. reflexivity. Qed.
Lemma label_eqb_neq a b : a <> b -> label_eqb a b = false.
Proof. intro H. destruct (label_eqb a b) eqn:E; auto. apply label_eqb_iff in E. contradiction. Qed.

Lemma get_in {A} (cols : list (label * A)) c v : get_column cols c = Some v -> In (c, v) cols.
Proof.
  induction cols as [|[d w] r IH]; cbn [get_column]; [discriminate|].
  destruct (label_eqb d c) eqn:E; intro H.
  - apply label_eqb_iff in E. inversion H; subst. left; reflexivity.
  - right. auto.
Qed.
Lemma get_of_in {A} (cols : list (label * A)) c v : NoDup (map fst cols) -> In (c, v) cols -> get_column cols c = Some v.
Proof.
  induction cols as [|[d w] r IH]; cbn [get_column]; [contradiction|].
  intros ND [H|H].
  - inversion H; subst. rewrite label_eqb_refl. reflexivity.
  - inversion ND as [|? ? N1 N2]; subst. rewrite label_eqb_neq; auto.
    intro E; subst. apply N1. change c with (fst (c, v)). apply in_map. exact H.
Qed.
Lemma get_none {A} (cols : list (label * A)) c : get_column cols c = None <-> ~ In c (map fst cols).
Proof.
  induction cols as [|[d w] r IH]; cbn [get_column map fst In]; [intuition|].
  destruct (label_eqb d c) eqn:E.
  - apply label_eqb_iff in E. split; [discriminate|]. intro H. exfalso. apply H. left; exact E.
  - rewrite IH. assert (d <> c) by (intro F; apply label_eqb_iff in F; congruence). intuition.
Qed.

Lemma put_labels {A} (cols : list (label * A)) c v : In c (map fst cols) -> map fst (put_column cols c v) = map fst cols.
Proof.
  induction cols as [|[d w] r IH]; cbn [put_column map fst In]; [contradiction|].
  destruct (label_eqb d c) eqn:E; intro H; [reflexivity|].
  cbn [map fst]. rewrite IH; auto. destruct H as [H|H]; auto.
  apply label_eqb_iff in H. congruence.
Qed.
Lemma get_put {A} (cols : list (label * A)) c v d : get_column (put_column cols c v) d = if label_eqb c d then Some v else get_column cols d.
Proof.
  induction cols as [|[e w] r IH]; cbn [put_column get_column].
  - reflexivity.
  - destruct (label_eqb e c) eqn:E; cbn [get_column].
    + apply label_eqb_iff in E; subst. destruct (label_eqb c d); reflexivity.
    + rewrite IH. destruct (label_eqb e d) eqn:F; auto.
      destruct (label_eqb c d) eqn:G; auto.
      apply label_eqb_iff in F, G. subst. rewrite label_eqb_refl in E. discriminate.
Qed.

Lemma cols_ext {A} (l l' : list (label * A)) : map fst l = map fst l' -> NoDup (map fst l) ->
  (forall c, get_column l c = get_column l' c) -> l = l'.
Proof.
  revert l'. induction l as [|[c v] r IH]; intros [|[c' v'] r'] E ND G; try discriminate; auto.
  cbn [map fst] in E. inversion E; subst c'. inversion ND as [|? ? N1 N2]; subst.
  pose proof (G c) as G0. cbn [get_column] in G0. rewrite label_eqb_refl in G0. inversion G0; subst v'.
  f_equal. apply IH; auto. intro d. specialize (G d). cbn [get_column] in G.
  destruct (label_eqb c d) eqn:F; auto.
  apply label_eqb_iff in F; subst d. transitivity (@None A).
  - apply get_none. exact N1.
  - symmetry. apply get_none. rewrite <- H1. exact N1.
Qed.

(** ** fit *)
Lemma finite_weights_map l ws : finite_weights l = Some ws <-> l = map Fin ws.
Proof.
  revert ws. induction l as [|x r IH]; intro ws; cbn [finite_weights].
  - destruct ws; cbn; split; congruence.
  - destruct x as [q| | |].
    2-4: destruct ws; cbn; split; congruence.
    destruct (finite_weights r) as [qs|] eqn:E.
    + split.
      * intro H. inversion H; subst. cbn [map]. f_equal. apply IH. reflexivity.
      * intro H. destruct ws as [|u us]; cbn [map] in H; [discriminate|]. injection H as E1 E2.
        pose proof (proj2 (IH us) E2) as E3. congruence.
    + split; [discriminate|]. intro H. destruct ws as [|u us]; cbn [map] in H; [discriminate|]. injection H as E1 E2.
      pose proof (proj2 (IH us) E2) as E3. congruence.
Qed.

Lemma weights_spec b X ws : NoDup (labels X) ->
  (frame_weights (b_weight b) X = Some ws <-> row_weights b X ws).
Proof.
  intro ND. unfold frame_weights, row_weights, column_is. destruct (b_weight b) as [w|].
  - split.
    + destruct (get_column (fr_cols X) w) as [v|] eqn:E; [|discriminate].
      rewrite finite_weights_map. intro; subst. apply get_in. exact E.
    + intro H. apply get_of_in in H; auto. rewrite H. apply finite_weights_map. reflexivity.
  - split; [intro H; inversion H; reflexivity|intro; subst; reflexivity].
Qed.

Lemma excluded_iff w c : excluded w c = true <-> w = Some c.
Proof.
  destruct w as [w|]; cbn [excluded]; [|split; congruence].
  rewrite label_eqb_iff. split; congruence.
Qed.
Lemma declared_iff props c : declared props c = true <-> exists p, declares props c p.
Proof.
  unfold declared, declares. destruct props as [d|].
  - destruct (d c) as [p|]; split; try discriminate; try (intros [p' H]; congruence).
    intros _. exists p. reflexivity.
  - split; auto. intros _. exists 1%N. reflexivity.
Qed.
Lemma property_declares props c p : binning_feature_property props c = Prop_ p <->
  declares props c p /\ check_flags_consistency p = FlagsOk.
Proof.
  unfold binning_feature_property, declares. destruct props as [d|].
  - destruct (d c) as [q|]; [|split; [discriminate|intros [? _]; discriminate]].
    destruct (check_flags_consistency q) eqn:E; split; try discriminate;
      try (intro H; inversion H; subst; split; [reflexivity|assumption]);
      intros [H1 H2]; inversion H1; subst; congruence.
  - split.
    + intro H. inversion H; subst. split; reflexivity.
    + intros [H _]; subst. reflexivity.
Qed.
Lemma property_none props c : binning_feature_property props c = PropNone <-> declared props c = false.
Proof.
  unfold binning_feature_property, declared. destruct props as [d|]; [|split; discriminate].
  destruct (d c) as [q|]; [|split; reflexivity].
  destruct (check_flags_consistency q); split; discriminate.
Qed.

Lemma in_features b X c : In c (filter (declared (b_props b)) (feature_labels (b_weight b) X)) <->
  exists p, feature_column b X c p.
Proof.
  unfold feature_labels, feature_column. rewrite !filter_In, declared_iff, negb_true_iff.
  assert (E : excluded (b_weight b) c = false <-> b_weight b <> Some c)
    by (rewrite <- excluded_iff; destruct (excluded (b_weight b) c); intuition congruence).
  rewrite E. split.
  - intros [[H1 H2] [p H3]]. exists p. auto.
  - intros [p (H1 & H2 & H3)]. split; [auto|]. exists p; exact H3.
Qed.

Definition fit_ok (f : fit_result) : Prop := match f with FitNone _ | Fitted _ _ _ => True | _ => False end.

Lemma fit_loop_spec b X ws cols l : fit_loop b X ws cols = FOk l ->
  map fst l = filter (declared (b_props b)) cols /\
  (forall c, In c cols -> exists x, get_column (fr_cols X) c = Some x) /\
  (forall c f, In (c, f) l -> fit_ok f /\ exists p x, binning_feature_property (b_props b) c = Prop_ p /\
     get_column (fr_cols X) c = Some x /\
     f = fit_column p (b_bins b c) (b_eps b) (b_tol b) (combine x ws)).
Proof.
  revert l. induction cols as [|c r IH]; intros l H; cbn [fit_loop] in H.
  - inversion H; subst. split; [reflexivity|]. split; intros; contradiction.
  - destruct (get_column (fr_cols X) c) as [x|] eqn:G; [|discriminate].
    destruct (binning_feature_property (b_props b) c) as [|p|e] eqn:P; [| |discriminate].
    + destruct (IH _ H) as (A & B & C). split; [|split].
      * cbn [filter]. rewrite (proj1 (property_none _ _) P). exact A.
      * intros d [<-|Hd]; [exists x; exact G|auto].
      * exact C.
    + assert (D : declared (b_props b) c = true).
      { apply declared_iff. exists p. apply property_declares in P. tauto. }
      assert (K : exists f l', fit_ok f /\ l = (c, f) :: l' /\ fit_loop b X ws r = FOk l' /\
                f = fit_column p (b_bins b c) (b_eps b) (b_tol b) (combine x ws)).
      { destruct (fit_column p (b_bins b c) (b_eps b) (b_tol b) (combine x ws)) as [e|e bb cc| | |] eqn:F;
          try discriminate; destruct (fit_loop b X ws r) as [l'|e'] eqn:L; try discriminate;
          inversion H; subst; eexists; exists l'; split; [|split; [reflexivity|split; reflexivity]| |split; [reflexivity|split; reflexivity]]; exact I. }
      destruct K as (f & l' & K0 & K1 & K2 & K3). destruct (IH _ K2) as (A & B & C).
      subst l. split; [|split].
      * cbn [filter map fst]. rewrite D, A. reflexivity.
      * intros d [<-|Hd]; [exists x; exact G|auto].
      * intros d g [E|E]; [|auto]. inversion E; subst d g. split; [exact K0|]. exists p, x. auto.
Qed.

Lemma nodup_filter {A} (P : A -> bool) l : NoDup l -> NoDup (filter P l).
Proof. apply NoDup_filter. Qed.

(** The state of a fitted transformer. *)
Lemma bin_fit_spec b T b' : NoDup (labels T) -> bin_fit b T = FOk b' ->
  b_props b' = b_props b /\ b_weight b' = b_weight b /\ b_inplace b' = b_inplace b /\
  exists l, b_fitted b' = Some l /\ NoDup (map fst l) /\
    (forall c, In c (map fst l) <-> exists p, feature_column b T c p) /\
    (forall c f, In (c, f) l -> fit_ok f /\ exists p, binning_feature_property (b_props b) c = Prop_ p /\ learned b T c p f) /\
    List.length l = List.length (filter (declared (b_props b)) (feature_labels (b_weight b) T)) /\
    frame_empty T = false.
Proof.
  intros ND H. unfold bin_fit in H. destruct (frame_empty T) eqn:Em; [discriminate|].
  destruct (frame_weights (b_weight b) T) as [ws|] eqn:W; [|discriminate].
  destruct (fit_loop b T ws (feature_labels (b_weight b) T)) as [l|e] eqn:L; [|discriminate].
  inversion H; subst b'. split; [reflexivity|]. split; [reflexivity|]. split; [reflexivity|].
  exists l. destruct (fit_loop_spec _ _ _ _ _ L) as (A & B & C).
  split; [reflexivity|]. split; [|split; [|split; [|split]]].
  - rewrite A. apply NoDup_filter, NoDup_filter. exact ND.
  - intro c. rewrite A. apply in_features.
  - intros c f I. destruct (C c f I) as [K (p & x & P & G & F)]. split; [exact K|].
    exists p. split; [exact P|]. exists x, ws.
    split; [apply get_in; exact G|]. split; [|split; [apply weights_spec; assumption|exact F]].
    assert (J : In c (map fst l)) by (change c with (fst (c, f)); apply in_map; exact I).
    rewrite A in J. apply in_features in J. destruct J as [q (J1 & J2 & J3)].
    split; [exact J1|]. split; [exact J2|]. apply property_declares in P. tauto.
  - rewrite <- A, map_length. reflexivity.
  - reflexivity.
Qed.

Lemma learned_unique b T c p f p' f' : NoDup (labels T) -> learned b T c p f -> learned b T c p' f' -> p = p' /\ f = f'.
Proof.
  intros ND (t & ws & A1 & (A2 & A3 & A4) & A5 & A6) (t' & ws' & B1 & (B2 & B3 & B4) & B5 & B6).
  assert (p = p') by (unfold declares in *; destruct (b_props b); congruence). subst p'.
  apply get_of_in in A1; auto. apply get_of_in in B1; auto.
  apply (weights_spec b T) in A5; auto. apply (weights_spec b T) in B5; auto.
  assert (t = t') by congruence. assert (ws = ws') by congruence. subst. auto.
Qed.

(** ** one column *)
Lemma column_map p f : fit_ok f -> check_flags_consistency p = FlagsOk ->
  (exists n eps tol zw, f = fit_column p n eps tol zw) ->
  exists g : fnum -> fnum, forall x, transform_column p f x = Some (map g x).
Proof.
  intros K Hc (n & eps & tol & zw & E). destruct f as [e|e bb cc| | |]; try contradiction.
  - exists (fun _ => MISSING). intro x. reflexivity.
  - assert (E2 : exists n, (2 <= n)%Z /\ fit_column p n eps tol zw = Fitted e bb cc).
    { destruct (Z_le_gt_dec 2 n) as [L|L]; [exists n; split; auto|].
      exists 2%Z. split; [lia|]. rewrite E. unfold fit_column in *.
      destruct (z_unique zw) as [|b0 bx]; [discriminate|].
      destruct (cdf_values zw) as [|c0 cx]; [discriminate|].
      destruct (is_ordered_set p || is_unordered_set p); [reflexivity|].
      exfalso. unfold reduce_cdf in E.
      replace (n <? 2)%Z with true in E by (symmetry; apply Z.ltb_lt; lia). discriminate. }
    destruct E2 as (m & M & E2).
    exists (tvalue p e (tl bb)). intro x.
    apply (fitted_transform p m eps tol zw e bb cc x Hc M E2).
Qed.

(** ** the loop of transform *)
Lemma set_df X c v : fr_df (set_column X c v) = fr_df X. Proof. reflexivity. Qed.
Lemma set_index X c v : fr_index (set_column X c v) = fr_index X. Proof. reflexivity. Qed.

Lemma transform_loop_spec props fits : NoDup (map fst fits) -> forall X X', transform_loop props fits X = (None, X') ->
  fr_df X' = fr_df X /\ fr_float X' = fr_float X /\ fr_index X' = fr_index X /\ labels X' = labels X /\
  (forall c, ~ In c (map fst fits) -> get_column (fr_cols X') c = get_column (fr_cols X) c) /\
  (forall c f p, In (c, f) fits -> binning_feature_property props c = Prop_ p ->
     exists x y, get_column (fr_cols X) c = Some x /\ transform_column p f x = Some y /\ get_column (fr_cols X') c = Some y).
Proof.
  induction fits as [|[c f] r IH]; intros ND X X' H; cbn [transform_loop] in H.
  - inversion H; subst. repeat split; auto. intros; contradiction.
  - cbn [map fst] in ND. inversion ND as [|? ? N1 N2]; subst.
    destruct (binning_feature_property props c) as [|p|e] eqn:P; [| |discriminate].
    + destruct (IH N2 _ _ H) as (A0 & A1 & A2 & A3 & A4 & A5).
      split; [exact A0|]. split; [exact A1|]. split; [exact A2|]. split; [exact A3|]. split.
      * intros d Hd. apply A4. cbn [map fst In] in Hd. intuition.
      * intros d g q [E|E] Q; [|apply (A5 d g q E Q)]. inversion E; subst. congruence.
    + destruct (get_column (fr_cols X) c) as [x|] eqn:G; [|discriminate].
      destruct (transform_column p f x) as [v|] eqn:V; [|discriminate].
      destruct (IH N2 _ _ H) as (A0 & A1 & A2 & A3 & A4 & A5).
      assert (Hc : In c (labels X)).
      { unfold labels. change c with (fst (c, x)). apply in_map. apply get_in. exact G. }
      split; [exact A0|]. split; [exact A1|]. split; [exact A2|]. split; [|split].
      * rewrite A3. unfold labels, set_column. cbn [fr_cols]. apply put_labels. exact Hc.
      * intros d Hd. cbn [map fst In] in Hd. rewrite A4 by intuition.
        unfold set_column. cbn [fr_cols]. rewrite get_put, label_eqb_neq; [reflexivity|]. intro; subst; apply Hd; left; reflexivity.
      * intros d g q [E|E] Q.
        -- inversion E; subst d g. assert (q = p) by congruence. subst q. exists x, v. split; [exact G|]. split; [exact V|].
           rewrite A4 by exact N1. unfold set_column. cbn [fr_cols]. rewrite get_put, label_eqb_refl. reflexivity.
        -- destruct (A5 d g q E Q) as (x' & y' & B1 & B2 & B3). exists x', y'. split; [|auto].
           unfold set_column in B1. cbn [fr_cols] in B1. rewrite get_put, label_eqb_neq in B1; auto.
           intro; subst d. apply N1. change c with (fst (c, g)). apply in_map. exact E.
Qed.

Lemma transform_loop_ok props fits X : NoDup (map fst fits) ->
  (forall c f, In (c, f) fits -> exists p, binning_feature_property props c = Prop_ p /\ In c (labels X) /\
      exists g : fnum -> fnum, forall x, transform_column p f x = Some (map g x)) ->
  exists X', transform_loop props fits X = (None, X').
Proof.
  revert X. induction fits as [|[c f] r IH]; intros X ND H; cbn [transform_loop].
  - exists X. reflexivity.
  - inversion ND as [|? ? N1 N2]; subst.
    destruct (H c f (or_introl eq_refl)) as (p & P & I & g & G). rewrite P.
    destruct (get_column (fr_cols X) c) as [x|] eqn:E.
    2: { apply get_none in E. contradiction. }
    rewrite G. apply IH; auto. intros d h Hd. destruct (H d h (or_intror Hd)) as (q & Q & J & k).
    exists q. split; [exact Q|]. split; [|exact k].
    unfold labels, set_column. cbn [fr_cols]. rewrite put_labels; auto.
Qed.

Lemma transform_loop_missing props fits c f p : In (c, f) fits -> binning_feature_property props c = Prop_ p ->
  forall X, ~ In c (labels X) -> exists e X', transform_loop props fits X = (Some e, X').
Proof.
  induction fits as [|[d g] r IH]; [contradiction|]. intros H P X N. cbn [transform_loop].
  destruct H as [H|H].
  - inversion H; subst. rewrite P. assert (G : get_column (fr_cols X) c = None) by (apply get_none; exact N).
    rewrite G. eauto.
  - destruct (binning_feature_property props d) as [|q|e]; [apply IH; auto| |eauto].
    destruct (get_column (fr_cols X) d) as [x|] eqn:G; [|eauto].
    destruct (transform_column q g x) as [v|]; [|eauto].
    apply IH; auto. unfold labels, set_column. cbn [fr_cols]. rewrite put_labels; auto.
    change d with (fst (d, x)). apply in_map. apply get_in. exact G.
Qed.

Lemma empty_columns X c v : table X -> frame_empty X = true -> column_is X c v -> v = [].
Proof.
  intros [_ L] E I. unfold frame_empty in E. apply orb_true_iff in E. destruct E as [E|E].
  - specialize (L c v I). destruct (fr_index X); [|discriminate]. destruct v; [reflexivity|discriminate].
  - unfold column_is in I. destruct (fr_cols X); [contradiction|discriminate].
Qed.

(** ** BinNumberTransformer.transform *)
Lemma transform_columns b T b' X R X' : table T -> table X -> bin_fit b T = FOk b' ->
  bin_transform b' X = (FOk R, X') ->
  same_shape R X /\
  forall c x, column_is X c x ->
    (forall p f, learned b T c p f -> exists y, column_is R c y /\ transform_column p f x = Some y) /\
    ((forall p, ~ feature_column b T c p) -> column_is R c x).
Proof.
  intros TT TX F H.
  destruct (bin_fit_spec _ _ _ (proj1 TT) F) as (B1 & B2 & B3 & l & B4 & B5 & B6 & B7 & B8 & _).
  assert (In_l : forall c p f, learned b T c p f -> In (c, f) l /\ binning_feature_property (b_props b) c = Prop_ p /\ fit_ok f).
  { intros c p f Hl. assert (I : In c (map fst l)).
    { apply B6. exists p. destruct Hl as (t & ws & _ & Hf & _). exact Hf. }
    apply in_map_iff in I. destruct I as ([d g] & E & I). cbn in E. subst d.
    destruct (B7 c g I) as (K & q & Q & Hq). destruct (learned_unique _ _ _ _ _ _ _ (proj1 TT) Hl Hq). subst.
    auto. }
  unfold bin_transform in H. destruct (check_input b' X); [discriminate|].
  destruct (frame_empty X) eqn:E.
  - assert (R = X).
    { destruct (fr_df X); [|inversion H; reflexivity].
      destruct (forallb _ _); inversion H; reflexivity. }
    subst R. split; [repeat split|]. intros c x I. assert (x = []) by (eapply empty_columns; eauto). subst x.
    split; [|auto]. intros p f Hl. exists []. split; [exact I|].
    destruct (In_l c p f Hl) as (I1 & I2 & I3).
    destruct (column_map p f I3) as [g G].
    + apply property_declares in I2. tauto.
    + destruct Hl as (t & ws & _ & _ & _ & Ef). eauto.
    + rewrite G. reflexivity.
  - rewrite B1 in H. unfold fitted_of in H. rewrite B4 in H.
    destruct (transform_loop (b_props b) l X) as [[e|] Y] eqn:L; [discriminate|].
    inversion H; subst R. destruct (transform_loop_spec _ _ B5 _ _ L) as (A0 & A1 & A2 & A3 & A4 & A5).
    split; [repeat split; auto|].
    intros c x I. apply get_of_in in I; [|apply TX]. split.
    + intros p f Hl. destruct (In_l c p f Hl) as (I1 & I2 & I3).
      destruct (A5 c f p I1 I2) as (x' & y & C1 & C2 & C3). assert (x' = x) by congruence. subst x'.
      exists y. split; [apply get_in; exact C3|exact C2].
    + intro N. apply get_in. rewrite A4; auto. intro J. apply B6 in J. destruct J as [p J]. exact (N p J).
Qed.

Lemma same_length b T X : table T -> table X ->
  (forall c p, feature_column b T c p <-> feature_column b X c p) ->
  List.length (filter (declared (b_props b)) (feature_labels (b_weight b) X)) =
  List.length (filter (declared (b_props b)) (feature_labels (b_weight b) T)).
Proof.
  intros TT TX H. apply Permutation_length. apply NoDup_Permutation.
  - apply NoDup_filter, NoDup_filter. apply TX.
  - apply NoDup_filter, NoDup_filter. apply TT.
  - intro c. rewrite !in_features. split; intros [p Hp]; exists p; apply H; exact Hp.
Qed.

Lemma transform_accepts b T b' X : table T -> table X -> bin_fit b T = FOk b' ->
  (forall c p, feature_column b T c p <-> feature_column b X c p) ->
  exists R, fst (bin_transform b' X) = FOk R.
Proof.
  intros TT TX F H.
  destruct (bin_fit_spec _ _ _ (proj1 TT) F) as (B1 & B2 & B3 & l & B4 & B5 & B6 & B7 & B8 & _).
  unfold bin_transform, check_input. rewrite B4, B1, B2, B8, (same_length b T X TT TX H), Nat.eqb_refl.
  assert (J : forall c f, In (c, f) l -> In c (labels X)).
  { intros c f I. assert (I' : In c (map fst l)) by (change c with (fst (c, f)); apply in_map; exact I).
    apply B6 in I'. destruct I' as [p I']. apply H in I'. apply I'. }
  destruct (frame_empty X).
  - destruct (fr_df X); [|eexists; reflexivity].
    unfold fitted_of. rewrite B4. replace (forallb _ l) with true; [eexists; reflexivity|].
    symmetry. apply forallb_forall. intros [c f] I. cbn [fst]. apply existsb_exists. exists c.
    split; [apply (J c f I)|apply label_eqb_refl].
  - unfold fitted_of. rewrite B4. destruct (transform_loop_ok (b_props b) l X B5) as [X' E].
    + intros c f I. destruct (B7 c f I) as (K & p & P & Hl). exists p. split; [exact P|].
      split; [apply (J c f I)|]. apply column_map; auto.
      * apply property_declares in P. tauto.
      * destruct Hl as (t & ws & _ & _ & _ & Ef). eauto.
    + rewrite E. eexists; reflexivity.
Qed.

Lemma transform_rejects b T b' X c p : table T -> bin_fit b T = FOk b' ->
  feature_column b T c p -> ~ In c (labels X) -> fr_df X = true \/ frame_empty X = false ->
  exists e, fst (bin_transform b' X) = FErr e.
Proof.
  intros TT F Hf N D.
  destruct (bin_fit_spec _ _ _ (proj1 TT) F) as (B1 & B2 & B3 & l & B4 & B5 & B6 & B7 & B8 & _).
  unfold bin_transform. destruct (check_input b' X) as [e|]; [exists e; reflexivity|].
  assert (I : In c (map fst l)) by (apply B6; exists p; exact Hf).
  apply in_map_iff in I. destruct I as ([d f] & E & I). cbn in E. subst d.
  unfold fitted_of. rewrite B4. destruct (frame_empty X) eqn:Em.
  - destruct D as [D|D]; [|discriminate]. rewrite D.
    replace (forallb _ l) with false; [eexists; reflexivity|].
    symmetry. apply not_true_iff_false. intro A. rewrite forallb_forall in A. specialize (A _ I). cbn [fst] in A.
    apply existsb_exists in A. destruct A as (d & A1 & A2). apply label_eqb_iff in A2. subst d. contradiction.
  - rewrite B1. destruct (B7 c f I) as (K & q & Q & _).
    destruct (transform_loop_missing _ _ c f q I Q X N) as (e & X' & L). rewrite L. exists e. reflexivity.
Qed.

Lemma transform_input b X : b_inplace b = false -> snd (bin_transform b X) = X.
Proof.
  intro H. unfold bin_transform. destruct (check_input b X); [reflexivity|].
  destruct (frame_empty X).
  - destruct (fr_df X); [destruct (forallb _ _)|]; reflexivity.
  - destruct (transform_loop _ _ X) as [[e|] Y]; rewrite H; reflexivity.
Qed.
Lemma transform_inplace b X R : b_inplace b = true -> fst (bin_transform b X) = FOk R -> snd (bin_transform b X) = R.
Proof.
  intro H. unfold bin_transform. destruct (check_input b X); [discriminate|].
  destruct (frame_empty X).
  - destruct (fr_df X); [destruct (forallb _ _)|]; cbn; congruence.
  - destruct (transform_loop _ _ X) as [[e|] Y]; rewrite H; cbn; congruence.
Qed.

(** ** rows *)
Lemma take_map {A B} (g : A -> B) idx d d' l : (forall i, In i idx -> (i < List.length l)%nat) ->
  take idx d' (map g l) = map g (take idx d l).
Proof.
  intro H. unfold take. rewrite map_map. apply map_ext_in. intros i I. specialize (H i I).
  rewrite (nth_indep _ d' (g d)) by (rewrite map_length; exact H). apply map_nth.
Qed.
Lemma take_labels idx X : labels (take_rows idx X) = labels X.
Proof. unfold labels, take_rows. cbn [fr_cols]. rewrite map_map. reflexivity. Qed.
Lemma take_get idx X c : get_column (fr_cols (take_rows idx X)) c =
  match get_column (fr_cols X) c with Some v => Some (take idx NaN v) | None => None end.
Proof.
  unfold take_rows. cbn [fr_cols]. induction (fr_cols X) as [|[d v] r IH]; cbn [map fst snd get_column]; [reflexivity|].
  destruct (label_eqb d c); auto.
Qed.
Lemma take_table idx X : table X -> table (take_rows idx X).
Proof.
  intros [A B]. split; [rewrite take_labels; exact A|].
  intros c v I. unfold take_rows in I. cbn [fr_cols] in I. apply in_map_iff in I.
  destruct I as ([d w] & E & I). inversion E; subst. cbn [fr_index take_rows]. unfold take. rewrite !map_length. reflexivity.
Qed.
Lemma frame_eq X Y : fr_df X = fr_df Y -> fr_float X = fr_float Y -> fr_index X = fr_index Y -> fr_cols X = fr_cols Y -> X = Y.
Proof. destruct X, Y; cbn; intros; subst; reflexivity. Qed.

Lemma transform_rows b T b' X R X' idx : table T -> table X -> bin_fit b T = FOk b' ->
  bin_transform b' X = (FOk R, X') -> (forall i, In i idx -> (i < List.length (fr_index X))%nat) ->
  fst (bin_transform b' (take_rows idx X)) = FOk (take_rows idx R).
Proof.
  intros TT TX F H HI.
  destruct (bin_fit_spec _ _ _ (proj1 TT) F) as (B1 & B2 & B3 & l & B4 & B5 & B6 & B7 & B8 & _).
  pose proof H as H0. unfold bin_transform in H. destruct (check_input b' X) eqn:C; [discriminate|].
  assert (C' : check_input b' (take_rows idx X) = None).
  { unfold check_input, feature_labels in *. rewrite take_labels. exact C. }
  unfold bin_transform. rewrite C'.
  destruct (frame_empty X) eqn:E.
  - assert (Em : frame_empty (take_rows idx X) = true).
    { unfold frame_empty in *. apply orb_true_iff in E. apply orb_true_iff. destruct E as [E|E].
      - left. destruct (fr_index X) eqn:EI; [|discriminate]. destruct idx as [|i idx']; [reflexivity|].
        specialize (HI i (or_introl eq_refl)). cbn in HI. lia.
      - right. unfold take_rows. cbn [fr_cols]. destruct (fr_cols X); [reflexivity|discriminate]. }
    rewrite Em. cbn [fr_df take_rows].
    destruct (fr_df X) eqn:D.
    + destruct (forallb (fun cf => has_label X (fst cf)) (fitted_of b')) eqn:FB; [|discriminate].
      injection H as E1 E2; subst R X'.
      replace (forallb _ _) with true.
      2: { rewrite <- FB. unfold has_label. rewrite take_labels. reflexivity. }
      reflexivity.
    + inversion H; subst R. cbn [fst]. f_equal.
  - rewrite B1 in *. unfold fitted_of in *. rewrite B4 in *.
    destruct (transform_loop (b_props b) l X) as [[e|] Y] eqn:L; [discriminate|].
    inversion H; subst R.
    destruct (transform_loop_spec _ _ B5 _ _ L) as (A0 & A1 & A2 & A3 & A4 & A5).
    assert (G : forall c f, In (c, f) l -> exists p, binning_feature_property (b_props b) c = Prop_ p /\
       exists g : fnum -> fnum, forall x, transform_column p f x = Some (map g x)).
    { intros c f I. destruct (B7 c f I) as (K & p & P & Hl). exists p. split; [exact P|].
      apply column_map; auto.
      - apply property_declares in P. tauto.
      - destruct Hl as (t & ws & _ & _ & _ & Ef). eauto. }
    assert (Hx : forall c x, get_column (fr_cols X) c = Some x -> List.length x = List.length (fr_index X)).
    { intros c x I. apply get_in in I. exact (proj2 TX c x I). }
    destruct (transform_loop_ok (b_props b) l (take_rows idx X) B5) as [Z LZ].
    { intros c f I. destruct (G c f I) as (p & P & g & Hg). exists p. split; [exact P|]. split; [|eauto].
      rewrite take_labels. destruct (A5 c f p I P) as (x & y & D1 & _).
      unfold labels. change c with (fst (c, x)). apply in_map. apply get_in. exact D1. }
    destruct (transform_loop_spec _ _ B5 _ _ LZ) as (Z0 & Z1 & Z2 & Z3 & Z4 & Z5).
    assert (EZ : Z = take_rows idx Y).
    { apply frame_eq.
      - rewrite Z0. cbn. congruence.
      - rewrite Z1. cbn. congruence.
      - rewrite Z2. cbn. congruence.
      - apply cols_ext.
        + change (labels Z = labels (take_rows idx Y)). rewrite take_labels, Z3, take_labels, A3. reflexivity.
        + change (NoDup (labels Z)). rewrite Z3, take_labels. apply TX.
        + intro c. rewrite take_get.
          destruct (in_dec (fun a b => match label_eqb a b as t return label_eqb a b = t -> {a = b} + {a <> b} with
              | true => fun e => left (proj1 (label_eqb_iff a b) e)
              | false => fun e => right (fun q => eq_ind true (fun z => if z then True else False) I false
                   (eq_trans (eq_sym (proj2 (label_eqb_iff a b) q)) e)) end eq_refl) c (map fst l)) as [J|J].
          * apply in_map_iff in J. destruct J as ([d f] & Ed & J). cbn in Ed. subst d.
            destruct (G c f J) as (p & P & g & Hg).
            destruct (A5 c f p J P) as (x & y & D1 & D2 & D3).
            destruct (Z5 c f p J P) as (x' & y' & D1' & D2' & D3').
            rewrite take_get, D1 in D1'. rewrite D3, D3'. f_equal.
            rewrite Hg in D2, D2'. inversion D2. inversion D2'. inversion D1'. subst.
            symmetry. apply take_map. intros i Hi. rewrite (Hx c x D1). apply HI. exact Hi.
          * rewrite (Z4 c J), take_get, (A4 c J). reflexivity. }
    subst Z. destruct (frame_empty (take_rows idx X)) eqn:Em.
    + (* no rows left *)
      assert (idx = []).
      { unfold frame_empty in *. apply orb_true_iff in Em. apply orb_false_iff in E. destruct Em as [Em|Em].
        - cbn [fr_index take_rows] in Em. unfold take in Em. destruct idx; [reflexivity|discriminate].
        - unfold take_rows in Em. cbn [fr_cols] in Em. destruct (fr_cols X); [destruct E; discriminate|discriminate]. }
      subst idx.
      assert (EX : take_rows [] X = take_rows [] Y).
      { apply frame_eq; cbn; try congruence. apply cols_ext.
        - change (labels (take_rows [] X) = labels (take_rows [] Y)). rewrite !take_labels. congruence.
        - change (NoDup (labels (take_rows [] X))). rewrite take_labels. apply TX.
        - intro c. change (get_column (fr_cols (take_rows [] X)) c = get_column (fr_cols (take_rows [] Y)) c).
          rewrite !take_get. unfold take. cbn [map].
          destruct (get_column (fr_cols X) c) eqn:G1, (get_column (fr_cols Y) c) eqn:G2; auto.
          + apply get_none in G2. exfalso. apply G2. change (In c (labels Y)). rewrite A3.
            unfold labels. change c with (fst (c, l0)). apply in_map. apply get_in. exact G1.
          + apply get_none in G1. exfalso. apply G1. change (In c (labels X)). rewrite <- A3.
            unfold labels. change c with (fst (c, l0)). apply in_map. apply get_in. exact G2. }
      rewrite <- EX.
      destruct (fr_df (take_rows [] X)); [|reflexivity].
      replace (forallb _ l) with true; [reflexivity|].
      symmetry. apply forallb_forall. intros [c f] I. cbn [fst]. unfold has_label. rewrite take_labels.
      apply existsb_exists. exists c. split; [|apply label_eqb_refl].
      destruct (G c f I) as (p & P & _). destruct (A5 c f p I P) as (x & y & D1 & _).
      unfold labels. change c with (fst (c, x)). apply in_map. apply get_in. exact D1.
    + rewrite LZ. reflexivity.
Qed.

(** ** ECdfTransformer.transform *)
Lemma ecdf_loop_spec props fits : NoDup (map fst fits) -> forall X X', ecdf_loop props fits X = (None, X') ->
  fr_df X' = fr_df X /\ fr_float X' = fr_float X /\ fr_index X' = fr_index X /\ labels X' = labels X /\
  (forall c, ~ In c (map fst fits) -> get_column (fr_cols X') c = get_column (fr_cols X) c) /\
  (forall c f p, In (c, f) fits -> binning_feature_property props c = Prop_ p ->
     exists x y, get_column (fr_cols X) c = Some x /\ ecdf_column p f x = Some y /\ get_column (fr_cols X') c = Some y).
Proof.
  induction fits as [|[c f] r IH]; intros ND X X' H; cbn [ecdf_loop] in H.
  - inversion H; subst. repeat split; auto. intros; contradiction.
  - cbn [map fst] in ND. inversion ND as [|? ? N1 N2]; subst.
    destruct (get_column (fr_cols X) c) as [x|] eqn:G; [|discriminate].
    destruct (binning_feature_property props c) as [|p|e] eqn:P; [| |discriminate].
    + destruct (IH N2 _ _ H) as (A0 & A1 & A2 & A3 & A4 & A5).
      split; [exact A0|]. split; [exact A1|]. split; [exact A2|]. split; [exact A3|]. split.
      * intros d Hd. apply A4. cbn [map fst In] in Hd. intuition.
      * intros d g q [E|E] Q; [|apply (A5 d g q E Q)]. inversion E; subst. congruence.
    + destruct (ecdf_column p f x) as [v|] eqn:V; [|discriminate].
      destruct (IH N2 _ _ H) as (A0 & A1 & A2 & A3 & A4 & A5).
      assert (Hc : In c (labels X)).
      { unfold labels. change c with (fst (c, x)). apply in_map. apply get_in. exact G. }
      split; [exact A0|]. split; [exact A1|]. split; [exact A2|]. split; [|split].
      * rewrite A3. unfold labels, set_column. cbn [fr_cols]. apply put_labels. exact Hc.
      * intros d Hd. cbn [map fst In] in Hd. rewrite A4 by intuition.
        unfold set_column. cbn [fr_cols]. rewrite get_put, label_eqb_neq; [reflexivity|]. intro; subst; apply Hd; left; reflexivity.
      * intros d g q [E|E] Q.
        -- inversion E; subst d g. assert (q = p) by congruence. subst q. exists x, v. split; [exact G|]. split; [exact V|].
           rewrite A4 by exact N1. unfold set_column. cbn [fr_cols]. rewrite get_put, label_eqb_refl. reflexivity.
        -- destruct (A5 d g q E Q) as (x' & y' & B1 & B2 & B3). exists x', y'. split; [|auto].
           unfold set_column in B1. cbn [fr_cols] in B1. rewrite get_put, label_eqb_neq in B1; auto.
           intro; subst d. apply N1. change c with (fst (c, g)). apply in_map. exact E.
Qed.

Lemma rebuilt_cols X : fr_cols (rebuilt X) = fr_cols X.
Proof. unfold rebuilt. destruct (fr_df X); reflexivity. Qed.

Lemma ecdf_columns b T b' X R X' : table T -> table X -> bin_fit b T = FOk b' ->
  frame_empty X = false -> ecdf_transform b' X = (FOk R, X') ->
  labels R = labels X /\
  forall c x, column_is X c x ->
    (forall p f, learned b T c p f -> exists y, column_is R c y /\ ecdf_column p f x = Some y) /\
    ((forall p, ~ feature_column b T c p) -> column_is R c x).
Proof.
  intros TT TX F Em H.
  destruct (bin_fit_spec _ _ _ (proj1 TT) F) as (B1 & B2 & B3 & l & B4 & B5 & B6 & B7 & B8 & _).
  unfold ecdf_transform in H. destruct (check_input b' X); [discriminate|]. rewrite Em in H.
  rewrite B1 in H. unfold fitted_of in H. rewrite B4 in H.
  destruct (ecdf_loop (b_props b) l X) as [[e|] Y] eqn:L; [discriminate|].
  injection H as E1 E2. destruct (ecdf_loop_spec _ _ B5 _ _ L) as (A0 & A1 & A2 & A3 & A4 & A5).
  split; [rewrite <- E1; unfold labels; rewrite rebuilt_cols; exact A3|].
  intros c x I. apply get_of_in in I; [|apply TX]. unfold column_is. rewrite <- E1, rebuilt_cols. split.
  - intros p f Hl. assert (J : In c (map fst l)).
    { apply B6. exists p. destruct Hl as (t & ws & _ & Hf & _). exact Hf. }
    apply in_map_iff in J. destruct J as ([d g] & E & J). cbn in E. subst d.
    destruct (B7 c g J) as (K & q & Q & Hq). destruct (learned_unique _ _ _ _ _ _ _ (proj1 TT) Hl Hq). subst.
    destruct (A5 c g q J Q) as (x' & y & C1 & C2 & C3). assert (x' = x) by congruence. subst x'.
    exists y. split; [apply get_in; exact C3|exact C2].
  - intro N. apply get_in. rewrite A4; auto. intro J. apply B6 in J. destruct J as [p J]. exact (N p J).
Qed.

Lemma ecdf_mutates b X R X' : fr_float X = true -> frame_empty X = false -> ecdf_transform b X = (FOk R, X') ->
  fr_cols X' = fr_cols R.
Proof.
  intros Ff Em H. unfold ecdf_transform in H. destruct (check_input b X); [discriminate|]. rewrite Em in H.
  destruct (ecdf_loop _ _ X) as [[e|] Y]; [discriminate|]. rewrite Ff in H. injection H as E1 E2.
  subst. rewrite rebuilt_cols. reflexivity.
Qed.
Lemma ecdf_copies b X : fr_float X = false -> snd (ecdf_transform b X) = X.
Proof.
  intros Ff. unfold ecdf_transform. destruct (check_input b X); [reflexivity|].
  destruct (frame_empty X); [reflexivity|].
  destruct (ecdf_loop _ _ X) as [[e|] Y]; rewrite Ff; reflexivity.
Qed.
Lemma ecdf_index b X R X' : fr_df X = true -> frame_empty X = false -> b_fitted b <> None ->
  NoDup (map fst (fitted_of b)) -> ecdf_transform b X = (FOk R, X') ->
  fr_index R = map Z.of_nat (seq 0 (List.length (fr_index X))).
Proof.
  intros D Em Bf ND H. unfold ecdf_transform in H. destruct (check_input b X); [discriminate|]. rewrite Em in H.
  destruct (ecdf_loop (b_props b) (fitted_of b) X) as [[e|] Y] eqn:L; [discriminate|]. injection H as E1 E2.
  destruct (ecdf_loop_spec _ _ ND _ _ L) as (A0 & A1 & A2 & _).
  rewrite <- E1. unfold rebuilt. rewrite A0, D. cbn [fr_index]. rewrite A2. reflexivity.
Qed.
Lemma ecdf_index_fitted b T b' X R X' : table T -> bin_fit b T = FOk b' -> fr_df X = true -> frame_empty X = false ->
  ecdf_transform b' X = (FOk R, X') -> fr_index R = map Z.of_nat (seq 0 (List.length (fr_index X))).
Proof.
  intros TT F D Em H.
  destruct (bin_fit_spec _ _ _ (proj1 TT) F) as (B1 & B2 & B3 & l & B4 & B5 & _).
  apply (ecdf_index b' X R X'); auto.
  - rewrite B4. discriminate.
  - unfold fitted_of. rewrite B4. exact B5.
Qed.

(** ** Examples *)
Definition nums (l : list Z) : list fnum := map (fun k => Fin (inject_Z k)) l.
Definition ex_train : frame :=
  {| fr_df := true; fr_float := true; fr_index := [10; 20; 30; 40]%Z;
     fr_cols := [(LName "price", nums [1; 2; 3; 4]%Z); (LName "w", nums [1; 3; 2; 2]%Z);
                 (LName "kind", nums [7; 8; 7; 8]%Z); (LName "note", nums [5; 5; 5; 5]%Z)] |}.
Definition ex_props (c : label) : option N :=
  match c with
  | LName s => if String.eqb s "price" then Some 1%N else if String.eqb s "kind" then Some 2%N
               else if String.eqb s "extra" then Some 1%N else None
  | _ => None
  end.
Definition ex_binner (inplace : bool) : binner :=
  {| b_bins := fun _ => 2%Z; b_props := Some ex_props; b_weight := Some (LName "w"); b_eps := 1 # 1000; b_tol := 1 # 10;
     b_inplace := inplace; b_fitted := None |}.
Definition ex_new : frame :=
  {| fr_df := true; fr_float := true; fr_index := [3; 1; 2]%Z;
     fr_cols := [(LName "note", nums [9; 9; 9]%Z); (LName "kind", nums [8; 6; 7]%Z); (LName "price", [Fin 4; NaN; Fin 1])] |}.
Definition ex_wrong : frame :=
  {| fr_df := true; fr_float := true; fr_index := [3; 1]%Z;
     fr_cols := [(LName "price", nums [4; 1]%Z); (LName "extra", nums [8; 8]%Z)] |}.

Lemma ex_tables : table ex_train /\ table ex_new /\ table ex_wrong.
Proof.
  unfold table, labels; cbn [ex_train ex_new ex_wrong fr_cols map fst fr_index List.length].
  split; [|split]; (split; [repeat constructor; cbn [In]; intuition congruence|]);
    intros c v; cbn [In]; intros H; repeat (destruct H as [H|H]; [inversion H; reflexivity|]); contradiction.
Qed.

Definition ex_fitted (inplace : bool) : binner :=
  match bin_fit (ex_binner inplace) ex_train with FOk b => b | FErr _ => ex_binner inplace end.
Lemma ex_fit i : bin_fit (ex_binner i) ex_train = FOk (ex_fitted i).
Proof. reflexivity. Qed.

Lemma ex_transform : fst (bin_transform (ex_fitted false) ex_new) =
  FOk {| fr_df := true; fr_float := true; fr_index := [3; 1; 2]%Z;
     fr_cols := [(LName "note", nums [9; 9; 9]%Z); (LName "kind", nums [1; -1; 0]%Z); (LName "price", nums [1; -1; 0]%Z)] |}.
Proof. vm_compute. reflexivity. Qed.

Lemma ex_features c p : feature_column (ex_binner false) ex_train c p <-> feature_column (ex_binner false) ex_new c p.
Proof.
  unfold feature_column, declares, labels. cbn [ex_binner b_weight b_props ex_train ex_new fr_cols map fst].
  split; intros (H1 & H2 & H3); (split; [|split; [exact H2|exact H3]]); cbn [In] in *;
    repeat (destruct H1 as [H1|H1]; [subst c; first [discriminate H3 | intuition]|]); contradiction.
Qed.

(** A failed call in place leaves a frame binned in parts. *)
Lemma inplace_partial : exists b T b' X, table T /\ table X /\ bin_fit b T = FOk b' /\
  (exists e, fst (bin_transform b' X) = FErr e) /\ snd (bin_transform b' X) <> X.
Proof.
  exists (ex_binner true), ex_train, (ex_fitted true), ex_wrong.
  split; [apply ex_tables|]. split; [apply ex_tables|]. split; [reflexivity|]. split.
  - exists ENoColumn. vm_compute. reflexivity.
  - vm_compute. discriminate.
Qed.

Lemma ex_ecdf : ecdf_transform (ex_fitted false) ex_new =
  (FOk {| fr_df := true; fr_float := true; fr_index := [0; 1; 2]%Z;
     fr_cols := [(LName "note", nums [9; 9; 9]%Z); (LName "kind", [Fin (8#8); NaN; Fin (3#8)]); (LName "price", [Fin (8#8); NaN; Fin 0])] |},
   {| fr_df := true; fr_float := true; fr_index := [3; 1; 2]%Z;
     fr_cols := [(LName "note", nums [9; 9; 9]%Z); (LName "kind", [Fin (8#8); NaN; Fin (3#8)]); (LName "price", [Fin (8#8); NaN; Fin 0])] |}).
Proof. vm_compute. reflexivity. Qed.
