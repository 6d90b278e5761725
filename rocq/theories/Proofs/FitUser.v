(** Fitted continuous columns from the samples on (C06, C07, C10). *)
From Coq Require Import ZArith NArith QArith List Bool Lia Lqa ZifyBool.
From Verif.Model Require Import Num BinarySearch Flags Ecdf BinTransform.
From Verif.Spec Require Import SearchSpec BinningSpec.
From Verif.Proofs Require Import NumFacts FnumOrder BinarySearchFacts EcdfFacts ReduceFacts FitFacts TransformFacts InterpFacts.
Import ListNotations.
Local Open Scope Q_scope.

Lemma ecdf_distribution zw : positive_weights zw -> (exists x w, In (x, w) zw /\ x <> NaN) ->
  distribution (z_unique zw) (cdf_values zw).
Proof.
  intros Hp (x & w & Hx & Hxn).
  pose proof (cdf_law zw (positive_no_zero zw Hp)) as L. pose proof L as (Hn & Hi & Ho & Hl & Hc).
  assert (Hne : (0 < length (z_unique zw))%nat).
  { assert (O : occurs x (z_unique zw)).
    { apply Ho. exists x. split; [apply in_map_iff; exists (x, w); auto|apply feq_refl; auto]. }
    destruct O as (y & Hy & _). destruct (z_unique zw); [contradiction|cbn; lia]. }
  assert (Wt : 0 < weight_total zw).
  { apply (weight_where_pos _ zw x w); auto. destruct x; auto; congruence. }
  split; auto. split; auto. split; auto. split; [eapply ecdf_increasing; eauto|]. split.
  - intros c Ec. destruct (nth_error (z_unique zw) 0) as [z|] eqn:Ez; [|apply nth_error_None in Ez; lia].
    rewrite (Hc 0%nat z c Ez Ec). apply Qlt_shift_div_l; auto. ring_simplify.
    destruct (z_unique_in zw z (nth_error_In _ _ Ez)) as [w' Hw'].
    apply (weight_where_pos _ zw z w'); auto. apply fle_refl.
    rewrite Forall_forall in Hn. apply Hn. eapply nth_error_In; eauto.
  - destruct (nth_error (cdf_values zw) (length (cdf_values zw) - 1)) as [c|] eqn:Ec.
    2:{ apply nth_error_None in Ec. lia. }
    exists c. split; auto.
    destruct (nth_error (z_unique zw) (length (z_unique zw) - 1)) as [z|] eqn:Ez; [|apply nth_error_None in Ez; lia].
    rewrite Hl in Ec. apply (ecdf_last zw _ _ z c Hp L Ez Ec).
Qed.

Lemma fit_continuous prop n eps tol zw :
  check_flags_consistency prop = FlagsOk -> is_continuous_set prop = true ->
  positive_weights zw -> (exists x w, In (x, w) zw /\ x <> NaN) ->
  (2 <= n)%Z -> 0 <= tol < 1 -> 0 <= eps -> eps < (1 - tol) / inject_Z n ->
  exists e bb cc zs cs,
    fit_column prop n eps tol zw = Fitted e bb cc /\ is_ecdf zw zs cs /\
    valid_binning zs cs n ((1 - tol) / inject_Z n - eps) bb cc /\
    (forall c, eps * inject_Z n < (1 - tol) / inject_Z n ->
       nth_error cc (length cc - 1) = Some c -> 1 - eps * inject_Z n <= c) /\
    (eps == 0 -> nth_error bb (length bb - 1) = nth_error zs (length zs - 1)).
Proof.
  intros Hc Hcont Hp Hx Hn Ht He He'.
  pose proof (ecdf_distribution zw Hp Hx) as D.
  destruct (reduce_main _ _ n eps tol D Hn Ht He He') as (bb & cc & Er & V & L1 & L2).
  exists (fscale eps (minimal_difference bb)), bb, cc, (z_unique zw), (cdf_values zw).
  split; [|split; [apply cdf_law, positive_no_zero; auto|auto]].
  unfold fit_column. rewrite (consistent_kind _ Hc) in Hcont. apply negb_true_iff in Hcont.
  rewrite Er, Hcont.
  destruct D as (Hl & _ & _ & _ & _ & c & Ec & _).
  destruct (z_unique zw); [destruct (cdf_values zw); discriminate|].
  destruct (cdf_values zw); [discriminate|]. reflexivity.
Qed.

Lemma finite_list l : Forall (fun v => isfinite v = true) l -> exists q, l = map Fin q.
Proof.
  induction 1 as [|v l Hv H [q ->]]; [exists []; auto|].
  destruct v as [x| | |]; try discriminate. exists (x :: q). reflexivity.
Qed.

Lemma valid_incl zs cs n m bb cc : valid_binning zs cs n m bb cc -> forall b, In b bb -> In b zs.
Proof.
  intros (Hl & Hr & H0 & _ & _ & _ & Hv & _) b Hb.
  apply In_nth_error in Hb. destruct Hb as [i Hi]. destruct i as [|i].
  - rewrite H0 in Hi. eapply nth_error_In; eauto.
  - destruct (nth_error cc (S i)) as [c|] eqn:Ec.
    + destruct (Hv (S i) b c ltac:(lia) Hi Ec) as (k & c' & Hk & _). eapply nth_error_In; eauto.
    + apply nth_error_None in Ec. assert (S i < length bb)%nat by (apply nth_error_Some; congruence). lia.
Qed.

(** Learned continuous binnings of finite data, as sequences of rationals. *)
Lemma fit_interp prop n eps tol zw :
  check_flags_consistency prop = FlagsOk -> is_continuous_set prop = true ->
  positive_weights zw -> finite_or_nan zw -> (exists x w, In (x, w) zw /\ x <> NaN) ->
  (2 <= n)%Z -> 0 <= tol < 1 -> 0 <= eps -> eps < (1 - tol) / inject_Z n ->
  exists e bb cc,
    fit_column prop n eps tol zw = Fitted (Fin e) (map Fin bb) cc /\
    0 <= e /\ nondecreasing bb /\ nondecreasing cc /\ length bb = length cc /\ (2 <= length bb)%nat /\
    (forall c, In c cc -> 0 <= c <= 1) /\
    (forall i a b, (i = 0%nat -> a < b) -> nth_error bb i = Some a -> nth_error bb (S i) = Some b -> a + e < b) /\
    nth_error cc 0 = Some 0.
Proof.
  intros Hc Hcont Hp Hfin Hx Hn Ht He He'.
  destruct (fit_continuous prop n eps tol zw Hc Hcont Hp Hx Hn Ht He He') as (e & bb & cc & zs & cs & Ef & L & V & _).
  pose proof L as (Lnn & _ & Locc & Llen & Lc).
  assert (Fb : Forall (fun v => isfinite v = true) bb).
  { apply Forall_forall. intros v Hv. apply (valid_incl _ _ _ _ _ _ V) in Hv.
    assert (O : occurs v (map fst zw)).
    { apply Locc. exists v. split; auto. apply feq_refl. rewrite Forall_forall in Lnn. auto. }
    destruct O as (y & Hy & E). apply in_map_iff in Hy. destruct Hy as ([y' w] & <- & Hy). cbn in E.
    destruct (Hfin y' w Hy) as [F|F]; [|apply feq_not_nan in E; tauto].
    destruct y', v; try discriminate; auto. }
  pose proof V as (Vl & Vr & V0 & Vc0 & Vi & Vic & Vv & Vm).
  pose proof (fit_column_shape prop n eps tol zw Hn) as Sh. rewrite Ef in Sh.
  destruct Sh as (Ee & Hs & _ & _ & _).
  destruct (finite_list bb Fb) as [bq ->]. rewrite map_length in *.
  assert (Fd : exists m, minimal_difference (map Fin bq) = Fin m /\ 0 < m /\
     forall d, In d (differences (map Fin bq)) -> flt (Fin 0) d = true -> fle (Fin m) d = true).
  { pose proof (minimal_difference_pos (map Fin bq)) as P.
    destruct (minimal_difference_cases (map Fin bq)) as [[E G]|(I & _ & G)].
    - exists 1. rewrite E. split; auto. split; [lra|]. intros d Hd Hd'. rewrite (G d Hd) in Hd'. discriminate.
    - pose proof (differences_finite _ Fb) as Fdf. rewrite Forall_forall in Fdf. specialize (Fdf _ I).
      destruct (minimal_difference (map Fin bq)) as [m| | |] eqn:Em; try discriminate.
      exists m. split; auto. split; [apply flt_Fin; auto|]. auto. }
  destruct Fd as (m & Em & Hm & Hgap). rewrite Em in Ee. cbn [fscale] in Ee. subst e.
  assert (Hn1 : 2 <= inject_Z n) by (change 2 with (inject_Z 2); rewrite <- Zle_Qle; auto).
  assert (E1 : eps < 1).
  { apply (Qlt_le_trans _ _ _ He'). apply Qle_shift_div_r; lra. }
  assert (Em1 : 0 <= eps * m) by (apply Qmult_le_0_compat; lra).
  assert (Em2 : eps * m < m).
  { setoid_replace m with (1 * m) at 2 by ring. apply Qmult_lt_compat_r; auto. }
  exists (eps * m), bq, cc. split; auto. split; auto. split.
  { intros i j a b Hij Ha Hb. apply fle_Fin. destruct Hs as [_ Hs].
    apply (Hs i j); auto; rewrite nth_error_map; [rewrite Ha|rewrite Hb]; reflexivity. }
  split. { intros i j a b Hij Ha Hb. apply Qlt_le_weak. apply (Vic i j); auto. }
  split; auto. split; [lia|]. split.
  { intros c Hin. apply In_nth_error in Hin. destruct Hin as [i Hi]. split.
    - destruct i as [|i]; [rewrite Vc0 in Hi; injection Hi as <-; lra|].
      apply Qlt_le_weak. apply (Vic 0%nat (S i)); auto. lia.
    - destruct i as [|i]; [rewrite Vc0 in Hi; injection Hi as <-; lra|].
      assert (Li : (S i < length cc)%nat) by (apply nth_error_Some; congruence).
      destruct (nth_error (map Fin bq) (S i)) as [b|] eqn:Eb.
      2:{ apply nth_error_None in Eb. rewrite map_length in Eb. lia. }
      destruct (Vv (S i) b c ltac:(lia) Eb Hi) as (k & c' & Hk & Hk' & E). rewrite E.
      rewrite (Lc k b c' Hk Hk').
      assert (Wt : 0 < weight_total zw).
      { destruct Hx as (x & w & Hx & Hxn). apply (weight_where_pos _ zw x w); auto. destruct x; auto; congruence. }
      apply Qle_shift_div_r; auto. ring_simplify.
      apply weight_where_le; auto. intros x H. destruct x; auto. }
  split; auto.
  intros i a b Hi Ha Hb.
  assert (D : flt (Fin a) (Fin b) = true).
  { destruct i as [|i]; [apply flt_Fin; auto|]. destruct bq as [|b0 bq]; [discriminate|]. cbn [map tl] in Vi.
    change (nth_error bq i = Some a) in Ha. change (nth_error bq (S i) = Some b) in Hb.
    apply (Vi i (S i)); [lia| |]; rewrite nth_error_map; [rewrite Ha|rewrite Hb]; reflexivity. }
  apply flt_Fin in D.
  assert (G : fle (Fin m) (fsub (Fin b) (Fin a)) = true).
  { apply Hgap.
    - apply (differences_nth _ i); rewrite nth_error_map; [rewrite Ha|rewrite Hb]; reflexivity.
    - cbn [fsub fneg fadd]. apply flt_Fin. lra. }
  cbn [fsub fneg fadd] in G. apply fle_Fin in G. lra.
Qed.

(** The quantile transform of a fitted continuous column. *)
Lemma quantile_transform prop n eps tol zw :
  check_flags_consistency prop = FlagsOk -> is_continuous_set prop = true ->
  positive_weights zw -> finite_or_nan zw -> (exists x w, In (x, w) zw /\ x <> NaN) ->
  (2 <= n)%Z -> 0 <= tol < 1 -> 0 <= eps -> eps < (1 - tol) / inject_Z n ->
  exists e bb cc,
    fit_column prop n eps tol zw = Fitted (Fin e) (map Fin bb) cc /\
    forall xs, exists ys, ecdf_transform_column prop e bb cc xs = Some ys /\ length ys = length xs /\
      (* NaN exactly for non-finite values *)
      (forall i x, nth_error xs i = Some x -> (nth_error ys i = Some None <-> isfinite x = false)) /\
      (* between 0 and 1 *)
      (forall i p, nth_error ys i = Some (Some p) -> 0 <= p <= 1) /\
      (* non-decreasing *)
      (forall i j x y p q, nth_error xs i = Some (Fin x) -> nth_error xs j = Some (Fin y) -> x <= y ->
         nth_error ys i = Some (Some p) -> nth_error ys j = Some (Some q) -> p <= q) /\
      (* exact at boundaries *)
      (forall i k b c, nth_error xs i = Some (Fin b) -> nth_error bb k = Some b -> nth_error cc k = Some c ->
         (k = 0%nat -> forall next, nth_error bb 1 = Some next -> b < next) ->
         nth_error ys i = Some (Some c)) /\
      (* outside the range *)
      (forall i x, nth_error xs i = Some (Fin x) -> (forall b, In b bb -> x + e < b) ->
         nth_error ys i = Some (Some 0)) /\
      (forall i x c, nth_error xs i = Some (Fin x) -> (forall b, In b bb -> b <= x) ->
         nth_error cc (length cc - 1) = Some c -> nth_error ys i = Some (Some c)).
Proof.
  intros Hc Hcont Hp Hfin Hx Hn Ht He He'.
  destruct (fit_interp prop n eps tol zw Hc Hcont Hp Hfin Hx Hn Ht He He')
    as (e & bb & cc & Ef & E0 & Nb & Nc & Hl & H2 & Hc01 & Hgap & Hc0).
  assert (Hne : bb <> []) by (destruct bb; [cbn in H2; lia|discriminate]).
  exists e, bb, cc. split; auto. intro xs.
  unfold ecdf_transform_column. rewrite Hcont.
  exists (map (fun x => match le_interp bb x cc 0 e with Some o => o | None => None end) xs).
  assert (Hsome : forall x, exists o, le_interp bb x cc 0 e = Some o).
  { intros [x| | |]; try (eexists; reflexivity).
    destruct (interp_range bb cc e Nb Nc Hl Hne E0 Hc01 x) as (r & H & _). eauto. }
  split.
  { apply map_opt_map. intros x _. destruct (Hsome x) as [o ->]. reflexivity. }
  split; [apply map_length|].
  assert (Hnth : forall i x, nth_error xs i = Some x ->
     forall o, nth_error (map (fun x => match le_interp bb x cc 0 e with Some o => o | None => None end) xs) i = Some o <->
       le_interp bb x cc 0 e = Some o).
  { intros i x Hi o. rewrite nth_error_map, Hi. cbn [option_map]. destruct (Hsome x) as [o' ->]. split; congruence. }
  split.
  { intros i x Hi. rewrite (Hnth i x Hi). apply interp_nan; auto. }
  split.
  { intros i p Hi. destruct (nth_error xs i) as [x|] eqn:Ex.
    2:{ rewrite nth_error_map, Ex in Hi. discriminate. }
    apply (Hnth i x Ex) in Hi.
    destruct x as [x| | |]; try discriminate.
    destruct (interp_range bb cc e Nb Nc Hl Hne E0 Hc01 x) as (r & H & B).
    rewrite H in Hi. injection Hi as <-. auto. }
  split.
  { intros i j x y p q Hi Hj Hxy Hpi Hqj. apply (Hnth i _ Hi) in Hpi. apply (Hnth j _ Hj) in Hqj.
    apply (interp_monotone bb cc e Nb Nc Hl Hne E0 Hc01 x y); auto. }
  split.
  { intros i k b c Hi Hk Hck Hk0. apply (Hnth i _ Hi).
    refine (interp_at_boundary bb cc e Nb Nc Hl Hne E0 Hc01 k b c Hk Hck _).
    intros z1 Hz1. refine (Hgap k b z1 _ Hk Hz1). intros ->. apply Hk0; auto. }
  split.
  { intros i x Hi Hb. apply (Hnth i _ Hi). apply interp_below; auto. }
  intros i x c Hi Hb Hck. apply (Hnth i _ Hi). apply interp_above; auto.
Qed.

(** Distinct training values never share a bin. *)
Lemma discrete_injective prop n eps tol zw e bb cc xs ys i j x y b :
  check_flags_consistency prop = FlagsOk -> is_continuous_set prop = false -> (2 <= n)%Z ->
  positive_weights zw -> finite_or_nan zw -> 0 <= eps -> eps < 1 ->
  fit_column prop n eps tol zw = Fitted e bb cc ->
  transform_column prop (Fitted e bb cc) xs = Some ys ->
  nth_error xs i = Some x -> regular prop x -> occurs x (map fst zw) ->
  nth_error xs j = Some y -> regular prop y -> occurs y (map fst zw) ->
  nth_error ys i = Some b -> nth_error ys j = Some b -> feq x y = true.
Proof.
  intros Hc Hcont Hn Hp Hfin He0 He1 Hf Hy Hi Hri Hoi Hj Hrj Hoj Hbi Hbj.
  destruct (discrete_training_value prop n eps tol zw e bb cc xs ys i x Hc Hcont Hn Hp Hfin He0 He1 Hf Hy Hi Hri Hoi)
    as (r & v & Hv & Ev & Hr).
  destruct (discrete_training_value prop n eps tol zw e bb cc xs ys j y Hc Hcont Hn Hp Hfin He0 He1 Hf Hy Hj Hrj Hoj)
    as (s & u & Hu & Eu & Hs).
  rewrite Hbi in Hr. rewrite Hbj in Hs. rewrite Hr in Hs. injection Hs as Hs.
  apply Nat2Z.inj in Hs. subst s. replace u with v in * by congruence.
  eapply feq_trans; [|exact Eu]. rewrite feq_sym. exact Ev.
Qed.

(** Ends of the range of a continuous column. *)
Lemma continuous_ends prop n eps tol zw e bb cc xs ys i x :
  check_flags_consistency prop = FlagsOk -> is_continuous_set prop = true -> (2 <= n)%Z -> 0 <= tol ->
  fit_column prop n eps tol zw = Fitted e bb cc ->
  transform_column prop (Fitted e bb cc) xs = Some ys ->
  nth_error xs i = Some x -> regular prop x ->
  ((forall v, In v (tl bb) -> fle (fsub x e) v = true) -> nth_error ys i = Some (Fin (inject_Z 0))) /\
  ((forall v, In v (tl bb) -> flt v (fsub x e) = true) ->
     nth_error ys i = Some (Fin (inject_Z (n_learned (Fitted e bb cc) - 1)))).
Proof.
  intros Hc Hcont Hn Ht Hf Hy Hx Hr.
  destruct (continuous_value prop n eps tol zw e bb cc xs ys i x Hc Hcont Hn Ht Hf Hy Hx Hr)
    as (k & b & Hb & Hk & Eb & B).
  destruct (first_ge_all _ _ _ Hk) as [H1 H2].
  assert (L : (n_learned (Fitted e bb cc) = Z.of_nat (length (tl bb)))%Z).
  { cbn. destruct bb; [cbn in B; lia|]. cbn [length tl]. lia. }
  split; intro H; rewrite Hb.
  - rewrite (H1 H) in Eb. replace b with 0%Z by lia. reflexivity.
  - rewrite L. rewrite H2 in Eb.
    + replace b with (Z.of_nat (length (tl bb)) - 1)%Z by lia. reflexivity.
    + intros v Hv. apply H in Hv. apply flt_iff in Hv. tauto.
Qed.

Lemma inject_neg1 b : Fin (inject_Z b) = Fin (inject_Z (-1)) -> b = (-1)%Z.
Proof. intro H. injection H as H. exact H. Qed.

Lemma continuous_missing_iff prop n eps tol zw e bb cc xs ys i x :
  check_flags_consistency prop = FlagsOk -> is_continuous_set prop = true -> (2 <= n)%Z -> 0 <= tol ->
  fit_column prop n eps tol zw = Fitted e bb cc ->
  transform_column prop (Fitted e bb cc) xs = Some ys ->
  nth_error xs i = Some x ->
  (nth_error ys i = Some (Fin (inject_Z (-1))) <->
   isfinite x = false \/ (has_magic_missing_set prop = true /\ magic x)).
Proof.
  intros Hc Hcont Hn Ht Hf Hy Hx. split; intro H.
  - destruct (is_finite_prop prop x) eqn:E.
    + apply is_finite_prop_iff in E.
      destruct (continuous_value prop n eps tol zw e bb cc xs ys i x Hc Hcont Hn Ht Hf Hy Hx E)
        as (k & b & Hb & Hk & Eb & B).
      rewrite H in Hb. injection Hb as Hb. lia.
    + destruct (isfinite x) eqn:Ei; [|left; auto]. right.
      unfold is_finite_prop in E. destruct (has_magic_missing_set prop); [|congruence].
      split; auto. unfold magic.
      destruct (feq x (Fin (inject_Z (-9)))); [left; auto|].
      destruct (feq x (Fin (inject_Z (-999)))); [right; auto|].
      rewrite Ei in E. discriminate.
  - rewrite <- Hf in Hy.
    destruct (missing_to_missing prop n eps tol zw xs ys i x Hc Hn Hy Hx H) as (y & Hyi & E).
    rewrite E in Hyi. exact Hyi.
Qed.

Lemma no_usable_all_missing prop n eps tol zw xs :
  (forall x w, In (x, w) zw -> x = NaN \/ w == 0) ->
  transform_column prop (fit_column prop n eps tol zw) xs = Some (map (fun _ => Fin (inject_Z (-1))) xs).
Proof.
  intro H. unfold fit_column.
  assert (E : cdf_values zw = []).
  { unfold cdf_values, group_weights.
    replace (filter _ _) with (@nil Q); [reflexivity|]. symmetry.
    assert (G : forall k, In k (z_unique zw) -> group_weight zw k == 0).
    { intros k Hk. rewrite group_weight_where. apply Qle_antisym.
      - clear Hk. induction zw as [|[x w] r IH]; cbn; [lra|].
        assert (IH' : weight_where (fun x0 : fnum => feq x0 k) r <= 0).
        { apply IH. intros y v Hy. apply (H y v). right; auto. }
        destruct (feq x k) eqn:E; auto.
        destruct (H x w (or_introl eq_refl)) as [->|W]; [destruct k; discriminate|lra].
      - clear Hk. induction zw as [|[x w] r IH]; cbn; [lra|].
        assert (IH' : 0 <= weight_where (fun x0 : fnum => feq x0 k) r).
        { apply IH. intros y v Hy. apply (H y v). right; auto. }
        destruct (feq x k) eqn:E; auto.
        destruct (H x w (or_introl eq_refl)) as [->|W]; [destruct k; discriminate|lra]. }
    induction (z_unique zw) as [|k l IH]; cbn; auto.
    assert (Ek : Qeq_bool (group_weight zw k) 0 = true) by (apply Qeq_bool_iff, G; left; auto).
    rewrite Ek. cbn. apply IH. intros k' Hk'. apply G. right; auto. }
  rewrite E. destruct (z_unique zw); reflexivity.
Qed.

(** NaN samples do not influence the fit. *)
Lemma filter_filter_imp {A} (f g : A -> bool) l : (forall x, f x = true -> g x = true) -> filter f (filter g l) = filter f l.
Proof.
  intro H. induction l as [|a r IH]; cbn; auto. specialize (H a).
  destruct (g a); cbn; [rewrite IH; auto|]. destruct (f a); [discriminate (H eq_refl)|auto].
Qed.

Lemma nan_ignored prop n eps tol (zw : list sample) :
  fit_column prop n eps tol (filter (fun p => negb (isnan (fst p))) zw) = fit_column prop n eps tol zw.
Proof.
  assert (Z : z_unique (filter (fun p => negb (isnan (fst p))) zw) = z_unique zw).
  { unfold z_unique. f_equal. induction zw as [|[x w] r IH]; cbn; auto.
    destruct (isnan x) eqn:E; cbn; auto. rewrite E. cbn. rewrite IH. auto. }
  assert (G : forall k, group_weight (filter (fun p => negb (isnan (fst p))) zw) k = group_weight zw k).
  { intro k. unfold group_weight. rewrite filter_filter_imp; auto.
    intros [x w]. cbn. destruct x; auto. }
  assert (W : cdf_wsum (filter (fun p => negb (isnan (fst p))) zw) = cdf_wsum zw).
  { unfold cdf_wsum. rewrite filter_filter_imp; auto. }
  assert (C : cdf_values (filter (fun p => negb (isnan (fst p))) zw) = cdf_values zw).
  { unfold cdf_values, group_weights. rewrite W, Z. rewrite (map_ext _ _ G). reflexivity. }
  unfold fit_column. rewrite Z, C. reflexivity.
Qed.
