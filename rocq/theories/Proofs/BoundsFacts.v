(** Proofs of C122. *)
From Coq Require Import ZArith NArith QArith Qabs Qround List Bool Lia Lqa.
From Verif.Model Require Import Num BinarySearch Flags Ecdf BinTransform Frames LexBins BinBounds.
From Verif.Spec Require Import SearchSpec FlagSpec BinningSpec FrameSpec BoundsSpec.
From Verif.Proofs Require Import NumFacts FnumOrder EcdfFacts FitFacts TransformFacts FitUser FrameFacts.
Import ListNotations.
Local Open Scope nat_scope.

(** ** What is reported *)
Lemma updated_get {V} : forall (e d : list (label * V)) c, NoDup (map fst e) ->
  get_column (updated d e) c = match get_column e c with Some v => Some v | None => get_column d c end.
Proof.
  unfold updated. induction e as [|[k v] e IH]; intros d c ND; [reflexivity|].
  inversion ND as [|? ? N ND']; subst. cbn [fold_left fst snd]. rewrite IH by exact ND'. rewrite get_put. cbn [get_column].
  destruct (label_eqb k c) eqn:E; [|reflexivity].
  apply label_eqb_iff in E. subst k. assert (G : get_column e c = None) by (apply get_none; exact N). rewrite G. reflexivity.
Qed.

Lemma boundaries_get fits c : get_column (feature_bin_boundaries fits) c = option_map boundaries (get_column fits c).
Proof. unfold feature_bin_boundaries. induction fits as [|[k f] r IH]; [reflexivity|]. cbn. destruct (label_eqb k c); auto. Qed.

Lemma boundaries_keys fits : map fst (feature_bin_boundaries fits) = map fst fits.
Proof. unfold feature_bin_boundaries. rewrite map_map. reflexivity. Qed.

Lemma all_bounds_app : forall bs r d, all_bounds d (bs ++ r) = match all_bounds d bs with Some d' => all_bounds d' r | None => None end.
Proof. induction bs as [|b bs IH]; intros r d; [reflexivity|]. cbn [all_bounds app]. destruct (b_fitted b); auto. Qed.

Lemma all_trained bs : Forall trained bs -> forall d, exists d', all_bounds d bs = Some d'.
Proof.
  induction 1 as [|b bs (b0 & T & TT & F) H IH]; intro d; [eexists; reflexivity|].
  cbn [all_bounds]. destruct (bin_fit_spec _ _ _ (proj1 TT) F) as (_ & _ & _ & l & -> & _). apply IH.
Qed.

Lemma all_without c bs : Forall (trained_without c) bs -> forall d, exists d', all_bounds d bs = Some d' /\ get_column d' c = get_column d c.
Proof.
  induction 1 as [|b bs (b0 & T & TT & F & No) H IH]; intro d; [exists d; split; reflexivity|].
  cbn [all_bounds]. destruct (bin_fit_spec _ _ _ (proj1 TT) F) as (_ & _ & _ & l & -> & ND & K & _).
  destruct (IH (updated d (feature_bin_boundaries l))) as (d' & E & G). exists d'. split; [exact E|]. rewrite G.
  rewrite updated_get by (rewrite boundaries_keys; exact ND). rewrite boundaries_get.
  assert (N : get_column l c = None). { apply get_none. rewrite K. intros (p & Hp). exact (No p Hp). }
  rewrite N. reflexivity.
Qed.

Lemma reported b T b' before after c p f : table T -> bin_fit b T = FOk b' -> Forall trained before ->
  Forall (trained_without c) after -> learned b T c p f ->
  get_bin_bounds (Some (before ++ b' :: after)) c = match f with Fitted _ bb _ => Bounds bb | _ => NoBounds end.
Proof.
  intros TT F Hb Ha Hl. unfold get_bin_bounds. rewrite all_bounds_app.
  destruct (all_trained before Hb []) as (d & ->). cbn [all_bounds].
  destruct (bin_fit_spec _ _ _ (proj1 TT) F) as (_ & _ & _ & l & -> & ND & K & Q & _).
  destruct (all_without c after Ha (updated d (feature_bin_boundaries l))) as (d' & -> & G). rewrite G.
  rewrite updated_get by (rewrite boundaries_keys; exact ND). rewrite boundaries_get.
  assert (I : In c (map fst l)). { apply K. exists p. destruct Hl as (t & ws & _ & Hf & _). exact Hf. }
  apply in_map_iff in I. destruct I as ([k g] & E & I). cbn in E. subst k.
  destruct (Q c g I) as (_ & q & _ & Hq). destruct (learned_unique _ _ _ _ _ _ _ (proj1 TT) Hl Hq) as (_ & <-).
  rewrite (get_of_in l c f ND I). cbn [option_map]. destruct f; reflexivity.
Qed.

Lemma reported_unknown bs c : Forall (trained_without c) bs -> get_bin_bounds (Some bs) c = NoBounds.
Proof. intro H. unfold get_bin_bounds. destruct (all_without c bs H []) as (d & -> & G). rewrite G. reflexivity. Qed.

Lemma reported_unfitted bs c b : In b bs -> b_fitted b = None -> get_bin_bounds (Some bs) c = BoundsError.
Proof.
  intros I H. unfold get_bin_bounds.
  assert (E : forall bs, In b bs -> forall d, all_bounds d bs = None).
  { clear bs I. induction bs as [|a bs IH]; intros I d; [contradiction|]. cbn [all_bounds].
    destruct I as [->|I]; [rewrite H; reflexivity|]. destruct (b_fitted a); auto. }
  rewrite E by exact I. reflexivity.
Qed.

(** ** Continuous columns *)
Lemma nth_tl {A} (l : list A) k : nth_error (tl l) k = nth_error l (S k).
Proof. destruct l; [destruct k; reflexivity|reflexivity]. Qed.

Lemma elem_nth (z : list fnum) i v : elem z i v <-> (0 <= i)%Z /\ nth_error z (Z.to_nat i) = Some v.
Proof. reflexivity. Qed.

Lemma described prop n eps tol zw e bb cc x k :
  check_flags_consistency prop = FlagsOk -> is_continuous_set prop = true -> (2 <= n)%Z -> (0 <= tol)%Q ->
  fit_column prop n eps tol zw = Fitted e bb cc -> regular prop x ->
  (put_in prop (Fitted e bb cc) x k <->
   k < length bb - 1 /\
   (k = 0 \/ exists l, nth_error bb k = Some l /\ flt l (fsub x e) = true) /\
   (S k = length bb - 1 \/ exists r, nth_error bb (S k) = Some r /\ fle (fsub x e) r = true)).
Proof.
  intros Hc Hk Hn Ht Hf Hr.
  pose proof (fit_eps_not_nan prop n eps tol zw e bb cc ltac:(assumption) Hf) as He.
  destruct (fitted_transform prop n eps tol zw e bb cc [x] Hc Hn Hf) as [Hy Hs].
  destruct (continuous_value prop n eps tol zw e bb cc [x] _ 0%nat x Hc Hk Hn Ht Hf Hy eq_refl Hr)
    as (i & b & Hb & (Hi & I1 & I2) & Eb & Rb).
  assert (Lt : length (tl bb) = length bb - 1) by (destruct bb; cbn [tl length]; lia).
  unfold put_in. rewrite Hy. cbn [map nth_error] in Hb |- *. injection Hb as Hb. rewrite Hb.
  assert (NX : fsub x e <> NaN).
  { destruct Hr as (Fx & _). destruct x; try discriminate. destruct e; cbn; congruence. }
  assert (NZ : forall j v, elem (tl bb) j v -> v <> NaN).
  { intros j v (_ & V). destruct Hs as (Hs & _). rewrite Forall_forall in Hs. apply Hs. eapply nth_error_In; exact V. }
  assert (Below : forall j v, elem (tl bb) j v -> (j < i)%Z -> flt v (fsub x e) = true).
  { intros j v V J. apply flt_iff. split; [exact (NZ j v V)|]. split; [exact NX|]. apply (I1 j v V); [apply V|exact J]. }
  assert (Above : forall j v, elem (tl bb) j v -> (i <= j)%Z -> fle (fsub x e) v = true).
  { intros j v V J. apply (I2 j v V J). destruct V as (V0 & V).
    assert (Z.to_nat j < length (tl bb)) by (apply nth_error_Some; congruence). lia. }
  assert (El : forall j v, nth_error bb (S j) = Some v -> elem (tl bb) (Z.of_nat j) v).
  { intros j v V. split; [lia|]. rewrite Nat2Z.id, nth_tl. exact V. }
  split.
  - intro E. injection E as E. assert (b = Z.of_nat k) by exact E. clear E Hb. subst b.
    split; [lia|]. split.
    + destruct k as [|k]; [left; reflexivity|]. right.
      destruct (nth_error bb (S k)) as [l|] eqn:El'; [|apply nth_error_None in El'; lia].
      exists l. split; [reflexivity|]. apply (Below (Z.of_nat k) l); [apply El; exact El'|lia].
    + destruct (Nat.eq_dec (S k) (length bb - 1)) as [L|L]; [left; exact L|]. right.
      destruct (nth_error bb (S k)) as [r|] eqn:Er; [|apply nth_error_None in Er; lia].
      exists r. split; [exact Er|]. apply (Above (Z.of_nat k) r); [apply El; exact Er|lia].
  - intros (K & L & R). enough (b = Z.of_nat k) as -> by reflexivity.
    assert (Lo : (Z.of_nat k <= i)%Z).
    { destruct L as [->|(l & El' & Lt')]; [lia|]. destruct k as [|k]; [lia|].
      destruct (Z_le_gt_dec (Z.of_nat (S k)) i) as [|G]; [assumption|exfalso].
      pose proof (Above (Z.of_nat k) l (El k l El') ltac:(lia)) as A.
      apply flt_iff in Lt'. destruct Lt' as (_ & _ & Lt'). congruence. }
    assert (Hi' : S k = length bb - 1 \/ (i <= Z.of_nat k)%Z).
    { destruct R as [->|(r & Er & Le)]; [left; reflexivity|]. right.
      destruct (Z_le_gt_dec i (Z.of_nat k)) as [|G]; [assumption|exfalso].
      pose proof (Below (Z.of_nat k) r (El k r Er) ltac:(lia)) as B.
      apply flt_iff in B. destruct B as (_ & _ & B). congruence. }
    lia.
Qed.

(** ** The labels *)
Lemma midpoints_length : forall bb, length (midpoints bb) = length bb - 1.
Proof.
  induction bb as [|a r IH]; [reflexivity|]. destruct r as [|b r']; [reflexivity|].
  change (midpoints (a :: b :: r')) with (round5 (fscale (1#2) (fadd a b)) :: midpoints (b :: r')).
  cbn [length] in *. rewrite IH. lia.
Qed.
Lemma midpoints_nth : forall bb k v, nth_error (midpoints bb) k = Some v ->
  exists a b, nth_error bb k = Some a /\ nth_error bb (S k) = Some b /\ v = round5 (fscale (1#2) (fadd a b)).
Proof.
  induction bb as [|a r IH]; intros k v H; [destruct k; discriminate|]. destruct r as [|b r']; [destruct k; discriminate|].
  change (midpoints (a :: b :: r')) with (round5 (fscale (1#2) (fadd a b)) :: midpoints (b :: r')) in H.
  destruct k as [|k]; cbn [nth_error] in H.
  - injection H as <-. exists a, b. repeat split; reflexivity.
  - destruct (IH k v H) as (a' & b' & A & B & E). exists a', b'. repeat split; assumption.
Qed.

Lemma round_close q : (Qabs (inject_Z (np_round (Fin q)) - q) <= 1#2)%Q.
Proof.
  apply Qabs_Qle_condition. cbn [np_round].
  pose proof (Qfloor_le (q + (1#2))) as A. pose proof (Qlt_floor (q + (1#2))) as B.
  rewrite inject_Z_plus in B. change (inject_Z 1) with 1%Q in B.
  destruct (Qeq_bool _ _ && Z.odd _) eqn:E.
  - apply andb_true_iff in E. destruct E as (E & _). apply Qeq_bool_eq in E.
    unfold Z.sub. rewrite inject_Z_plus. change (inject_Z (- (1))) with (-1)%Q. split; lra.
  - split; lra.
Qed.

Lemma round5_close q : exists r, round5 (Fin q) = Fin r /\ (q - (5#1000000) <= r /\ r <= q + (5#1000000))%Q.
Proof.
  unfold round5. eexists. split; [reflexivity|].
  pose proof (round_close (q * inject_Z 100000)) as H. apply Qabs_Qle_condition in H.
  set (m := inject_Z (np_round (Fin (q * inject_Z 100000)))) in *. clearbody m.
  change (inject_Z 100000) with (100000#1)%Q in *.
  assert (M : (m == m / (100000#1) * (100000#1))%Q) by (field).
  set (t := (m / (100000#1))%Q) in *. clearbody t. split; lra.
Qed.

Lemma round5_exact q : five_decimals q -> exists r, round5 (Fin q) = Fin r /\ (r == q)%Q.
Proof.
  intros (z & Z0). unfold round5. eexists. split; [reflexivity|].
  assert (E : np_round (Fin (q * inject_Z 100000)) = z).
  { cbn [np_round].
    assert (F : Qfloor (q * inject_Z 100000 + (1#2)) = z).
    { rewrite Z0. assert (A := Qfloor_le (inject_Z z + (1#2))). assert (B := Qlt_floor (inject_Z z + (1#2))).
      assert (C : (inject_Z (Qfloor (inject_Z z + (1#2))) < inject_Z (z + 1))%Q).
      { rewrite inject_Z_plus. change (inject_Z 1) with 1%Q. lra. }
      assert (D : (inject_Z z < inject_Z (Qfloor (inject_Z z + (1#2)) + 1))%Q) by lra.
      rewrite <- Zlt_Qlt in C, D. lia. }
    rewrite F. destruct (Qeq_bool _ (inject_Z z)) eqn:Eq; [|reflexivity].
    apply Qeq_bool_eq in Eq. exfalso. rewrite Z0 in Eq. lra. }
  rewrite E, <- Z0. change (inject_Z 100000) with (100000#1)%Q. field.
Qed.

Lemma label_in_bin prop n eps tol zw e bb cc k l r lab :
  check_flags_consistency prop = FlagsOk -> is_continuous_set prop = true -> (2 <= n)%Z -> (0 <= tol)%Q ->
  fit_column prop n eps tol zw = Fitted (Fin e) bb cc -> (0 <= e)%Q ->
  nth_error bb k = Some (Fin l) -> nth_error bb (S k) = Some (Fin r) ->
  (2 * e + (1#100000) < r - l \/ five_decimals ((l + r) / 2) /\ (2 * e < r - l \/ k = 0%nat /\ l <= r))%Q ->
  nth_error (axis_labels true bb) k = Some lab -> regular prop lab ->
  put_in prop (Fitted (Fin e) bb cc) lab k.
Proof.
  intros Hc Hk Hn Ht Hf He Hl Hr W Hlab Reg. cbn [axis_labels] in Hlab.
  destruct (midpoints_nth bb k lab Hlab) as (a & b & Ha & Hb & El).
  rewrite Hl in Ha. injection Ha as <-. rewrite Hr in Hb. injection Hb as <-.
  cbn [fadd fscale] in El. subst lab.
  set (m := ((1#2) * (l + r))%Q) in *.
  apply (described prop n eps tol zw (Fin e) bb cc _ k Hc Hk Hn Ht Hf Reg).
  assert (Lb : S k < length bb) by (apply nth_error_Some; congruence).
  assert (B : exists v, round5 (Fin m) = Fin v /\ (k = 0%nat \/ l < v - e)%Q /\ (v - e <= r)%Q).
  { destruct W as [W|(D & W)].
    - destruct (round5_close m) as (v & E & C1 & C2). exists v. split; [exact E|]. subst m.
      split; [right|]; lra.
    - destruct (round5_exact m) as (v & E & V).
      { destruct D as (z & Z0). exists z. rewrite <- Z0. subst m. field. }
      exists v. split; [exact E|]. subst m. destruct W as [W|(-> & W)].
      + split; [right|]; lra.
      + split; [left; reflexivity|lra]. }
  destruct B as (v & -> & B1 & B2). split; [lia|]. split.
  - destruct B1 as [->|B1]; [left; reflexivity|]. right. exists (Fin l). split; [exact Hl|].
    cbn [fsub fneg fadd]. apply flt_Fin. lra.
  - right. exists (Fin r). split; [exact Hr|]. cbn [fsub fneg fadd]. apply fle_Fin. lra.
Qed.

(** ** From the data on *)
Lemma gap bb k l r m : Forall (fun v => isfinite v = true) bb -> nth_error bb k = Some (Fin l) -> nth_error bb (S k) = Some (Fin r) ->
  (l < r)%Q -> minimal_difference bb = Fin m -> (m <= r - l)%Q.
Proof.
  intros Fb Hl Hr L M. pose proof (differences_nth bb k (Fin l) (Fin r) Hl Hr) as D. cbn [fsub fneg fadd] in D.
  assert (P : flt (Fin 0) (Fin (r + - l)) = true) by (apply flt_Fin; lra).
  destruct (minimal_difference_cases bb) as [(_ & N)|(_ & _ & B)]; [rewrite (N _ D) in P; discriminate|].
  specialize (B _ D P). rewrite M in B. apply fle_Fin in B. lra.
Qed.

Lemma minimal_finite bb : Forall (fun v => isfinite v = true) bb -> exists m, minimal_difference bb = Fin m /\ (0 < m)%Q.
Proof.
  intro Fb. pose proof (minimal_difference_pos bb) as P. pose proof (differences_finite _ Fb) as D. rewrite Forall_forall in D.
  destruct (minimal_difference_cases bb) as [(E & _)|(I & _)].
  - exists 1%Q. split; [exact E|lra].
  - specialize (D _ I). destruct (minimal_difference bb) as [m| | |]; try discriminate. exists m. split; [reflexivity|].
    apply flt_Fin in P. exact P.
Qed.

Section Continuous.
Variables (prop : N) (n : Z) (eps tol : Q) (zw : list sample) (e : fnum) (bb : list fnum) (cc : list Q).
Hypothesis Hc : check_flags_consistency prop = FlagsOk.
Hypothesis Hk : is_continuous_set prop = true.
Hypothesis Hp : positive_weights zw.
Hypothesis Hfin : finite_or_nan zw.
Hypothesis Hn : (2 <= n)%Z.
Hypothesis Ht : (0 <= tol < 1)%Q.
Hypothesis He : (0 <= eps)%Q.
Hypothesis He' : (eps < (1 - tol) / inject_Z n)%Q.
Hypothesis Hf : fit_column prop n eps tol zw = Fitted e bb cc.

Lemma eps_half : (eps < 1#2)%Q.
Proof.
  assert (N0 : (0 < inject_Z n)%Q) by (change 0%Q with (inject_Z 0); rewrite <- Zlt_Qlt; lia).
  assert (N2 : (2 <= inject_Z n)%Q) by (change 2%Q with (inject_Z 2); rewrite <- Zle_Qle; lia).
  assert (E : (eps * inject_Z n < 1 - tol)%Q).
  { apply (Qmult_lt_compat_r _ _ (inject_Z n)) in He'; [|exact N0].
    assert (Q0 : ((1 - tol) / inject_Z n * inject_Z n == 1 - tol)%Q) by (field; lra). rewrite Q0 in He'. exact He'. }
  assert (eps * 2 <= eps * inject_Z n)%Q by (rewrite !(Qmult_comm eps); apply Qmult_le_compat_r; assumption). lra.
Qed.

Lemma some_value : exists x w, In (x, w) zw /\ x <> NaN.
Proof.
  unfold fit_column in Hf. destruct (z_unique zw) as [|b0 bs] eqn:Z0; [discriminate|].
  assert (I : In b0 (z_unique zw)) by (rewrite Z0; left; reflexivity).
  destruct (z_unique_in zw b0 I) as (w & W). exists b0, w. split; [exact W|].
  exact (StrictSorted_no_nan _ _ (z_unique_sorted zw) I).
Qed.

Lemma continuous_facts : exists m, Forall (fun v => isfinite v = true) bb /\ minimal_difference bb = Fin m /\ (0 < m)%Q /\
  e = Fin (eps * m) /\ 2 <= length bb /\ increasing (tl bb) /\ (forall v, In v bb -> occurs v (map fst zw)) /\
  (forall l r, nth_error bb 0 = Some (Fin l) -> nth_error bb 1 = Some (Fin r) -> (l <= r)%Q).
Proof.
  destruct (fit_continuous prop n eps tol zw Hc Hk Hp some_value Hn Ht He He') as (e1 & bb1 & cc1 & zs & cs & Ef & L & V & _).
  rewrite Hf in Ef. injection Ef as <- <- <-.
  pose proof L as (Lnn & _ & Locc & Llen & Lc).
  assert (Oc : forall v, In v bb -> occurs v (map fst zw)).
  { intros v Hv. apply (valid_incl _ _ _ _ _ _ V) in Hv. apply Locc. exists v. split; [exact Hv|]. apply feq_refl.
    rewrite Forall_forall in Lnn. exact (Lnn v Hv). }
  assert (Fb : Forall (fun v => isfinite v = true) bb).
  { apply Forall_forall. intros v Hv. destruct (Oc v Hv) as (x & Hx & Ex). apply in_map_iff in Hx. destruct Hx as ([x' w] & <- & Hx).
    cbn [fst] in Ex. destruct (Hfin x' w Hx) as [Fx| ->]; [|discriminate]. destruct x'; try discriminate.
    destruct v; try discriminate; reflexivity. }
  destruct (minimal_finite bb Fb) as (m & M & M0).
  exists m. split; [exact Fb|]. split; [exact M|]. split; [exact M0|].
  pose proof (fit_column_shape prop n eps tol zw Hn) as S. rewrite Hf in S. destruct S as (S1 & S2 & _).
  split; [rewrite S1, M; reflexivity|]. destruct V as (_ & V2 & _ & _ & V5 & _). split; [lia|]. split; [exact V5|]. split; [exact Oc|].
  intros l r Hl Hr. destruct S2 as (_ & S2). apply fle_Fin. exact (S2 0 1 _ _ ltac:(lia) Hl Hr).
Qed.

(** The bounds of the bins. *)
Lemma bounds_of k : k < length bb - 1 -> exists l r, nth_error bb k = Some (Fin l) /\ nth_error bb (S k) = Some (Fin r) /\
  (l < r \/ k = 0%nat /\ l <= r)%Q.
Proof.
  intro K. destruct continuous_facts as (m & Fb & _ & _ & _ & _ & Inc & _ & Z0). rewrite Forall_forall in Fb.
  destruct (nth_error bb k) as [l|] eqn:L; [|apply nth_error_None in L; lia].
  destruct (nth_error bb (S k)) as [r|] eqn:R; [|apply nth_error_None in R; lia].
  pose proof (Fb l (nth_error_In _ _ L)) as Fl. pose proof (Fb r (nth_error_In _ _ R)) as Fr.
  destruct l as [l| | |]; try discriminate. destruct r as [r| | |]; try discriminate.
  exists l, r. split; [reflexivity|]. split; [reflexivity|]. destruct k as [|k].
  - right. split; [reflexivity|]. exact (Z0 l r L R).
  - left. apply flt_Fin. apply (Inc k (S k)); [lia| |]; rewrite nth_tl; assumption.
Qed.

Lemma eps_gap k l r : nth_error bb k = Some (Fin l) -> nth_error bb (S k) = Some (Fin r) -> (l < r)%Q ->
  exists q, e = Fin q /\ (0 <= q)%Q /\ (2 * q <= 2 * eps * (r - l))%Q /\ (2 * q < r - l)%Q.
Proof.
  intros L R LR. destruct continuous_facts as (m & Fb & M & M0 & E & _). exists (eps * m)%Q. split; [exact E|].
  pose proof (gap bb k l r m Fb L R LR M) as G. pose proof eps_half as Eh.
  assert (A : (0 <= eps * m)%Q) by (apply Qmult_le_0_compat; lra).
  assert (B : (eps * m <= eps * (r - l))%Q) by (rewrite !(Qmult_comm eps); apply Qmult_le_compat_r; assumption).
  split; [exact A|]. split; [lra|].
  assert (C : ((1#2) * (r - l) - eps * (r - l) > 0)%Q).
  { setoid_replace ((1#2) * (r - l) - eps * (r - l))%Q with (((1#2) - eps) * (r - l))%Q by ring.
    apply Qmult_lt_0_compat; lra. }
  lra.
Qed.

Lemma eps_finite : exists q, e = Fin q /\ (0 <= q)%Q.
Proof.
  destruct continuous_facts as (m & _ & _ & M0 & E & _). exists (eps * m)%Q. split; [exact E|].
  apply Qmult_le_0_compat; lra.
Qed.

Lemma labels_right k lab : nth_error (axis_labels true bb) k = Some lab -> regular prop lab ->
  exists l r, nth_error bb k = Some (Fin l) /\ nth_error bb (S k) = Some (Fin r) /\
    (five_decimals ((l + r) / 2) \/ (1#100000) < (1 - 2 * eps) * (r - l) -> put_in prop (Fitted e bb cc) lab k)%Q.
Proof.
  intros Hl Reg. assert (K : k < length bb - 1).
  { rewrite <- midpoints_length. apply nth_error_Some. cbn [axis_labels] in Hl. congruence. }
  destruct (bounds_of k K) as (l & r & L & R & LR). exists l, r. split; [exact L|]. split; [exact R|]. intro W.
  destruct (Qlt_le_dec l r) as [LT|GE].
  - destruct (eps_gap k l r L R LT) as (q & Eq & Q0 & Q1 & Q2). rewrite Eq in Hf |- *.
    apply (label_in_bin prop n eps tol zw q bb cc k l r lab Hc Hk Hn (proj1 Ht) Hf Q0 L R); [|exact Hl|exact Reg].
    destruct W as [W|W]; [right; split; [exact W|left; exact Q2]|left; lra].
  - destruct LR as [LR|(-> & LR)]; [lra|]. destruct eps_finite as (q & Eq & Q0). rewrite Eq in Hf |- *.
    apply (label_in_bin prop n eps tol zw q bb cc 0 l r lab Hc Hk Hn (proj1 Ht) Hf Q0 L R); [|exact Hl|exact Reg].
    destruct W as [W|W]; [right; split; [exact W|right; split; [reflexivity|exact LR]]|].
    exfalso. assert (Z0 : (r - l == 0)%Q) by lra. rewrite Z0 in W. lra.
Qed.

Lemma occupied_continuous : (forall x w, In (x, w) zw -> isfinite x = true -> regular prop x) ->
  forall k, k < length bb - 1 -> exists x w, In (x, w) zw /\ put_in prop (Fitted e bb cc) x k.
Proof.
  intros Hreg k K. destruct (bounds_of k K) as (l & r & L & R & LR).
  destruct continuous_facts as (m & _ & _ & _ & _ & _ & _ & Oc & _).
  destruct (Oc (Fin r) (nth_error_In _ _ R)) as (x & Hx & Ex). apply in_map_iff in Hx. destruct Hx as ([x' w] & <- & Hx).
  cbn [fst] in Ex. exists x', w. split; [exact Hx|]. destruct x' as [x| | |]; try discriminate. apply feq_Fin in Ex.
  apply (described prop n eps tol zw e bb cc (Fin x) k Hc Hk Hn (proj1 Ht) Hf (Hreg _ _ Hx eq_refl)).
  destruct eps_finite as (q & Eq & Q0). split; [exact K|]. split.
  - destruct k as [|k]; [left; reflexivity|]. right. destruct LR as [LR|(D & _)]; [|discriminate D].
    destruct (eps_gap (S k) l r L R LR) as (q' & Eq' & _ & _ & Q2). rewrite Eq in Eq'. injection Eq' as <-.
    exists (Fin l). split; [exact L|]. rewrite Eq. cbn [fsub fneg fadd]. apply flt_Fin. lra.
  - right. exists (Fin r). split; [exact R|]. rewrite Eq. cbn [fsub fneg fadd]. apply fle_Fin. lra.
Qed.
End Continuous.

(** ** Categories *)
Lemma category_labels prop n eps tol zw e bb cc k lab :
  check_flags_consistency prop = FlagsOk -> is_continuous_set prop = false -> (2 <= n)%Z ->
  positive_weights zw -> finite_or_nan zw -> (0 <= eps)%Q -> (eps < 1)%Q ->
  fit_column prop n eps tol zw = Fitted e bb cc ->
  nth_error (axis_labels false bb) k = Some lab ->
  (exists w, In (lab, w) zw) /\ (regular prop lab -> put_in prop (Fitted e bb cc) lab k).
Proof.
  intros Hc Hk Hn Hp Hfin He He1 Hf Hl. cbn [axis_labels] in Hl.
  pose proof (fit_column_shape prop n eps tol zw Hn) as S. rewrite Hf in S. destruct S as (_ & _ & _ & _ & S).
  assert (D : is_ordered_set prop || is_unordered_set prop = true).
  { rewrite (consistent_kind _ Hc) in Hk. destruct (_ || _); [reflexivity|discriminate]. }
  destruct (S D) as (Tl & _). rewrite Tl in Hl. pose proof (nth_error_In _ _ Hl) as I.
  destruct (z_unique_in zw lab I) as (w & W). split; [exists w; exact W|]. intro Reg.
  destruct (fitted_transform prop n eps tol zw e bb cc [lab] Hc Hn Hf) as [Hy _].
  assert (Oc : occurs lab (map fst zw)).
  { apply z_unique_occurs. exists lab. split; [exact I|]. apply feq_refl. exact (StrictSorted_no_nan _ _ (z_unique_sorted zw) I). }
  destruct (discrete_training_value prop n eps tol zw e bb cc [lab] _ 0 lab Hc Hk Hn Hp Hfin He He1 Hf Hy eq_refl Reg Oc)
    as (r & v & Hv & Ev & Er).
  assert (r = k).
  { rewrite Tl in Hv. pose proof (StrictSorted_increasing _ (z_unique_sorted zw)) as Inc.
    destruct (lt_eq_lt_dec r k) as [[L|E]|L]; [|exact E|]; exfalso.
    - pose proof (Inc r k _ _ L Hv Hl) as X. apply flt_not_eq in X. congruence.
    - pose proof (Inc k r _ _ L Hl Hv) as X. apply flt_not_eq in X. rewrite feq_sym in X. congruence. }
  subst r. unfold put_in. rewrite Hy. cbn [map nth_error] in Er |- *. congruence.
Qed.

Lemma labels_length c bb : length (axis_labels c bb) = length bb - 1.
Proof. destruct c; [apply midpoints_length|destruct bb; cbn [axis_labels tl length]; lia]. Qed.

(** ** Counterexamples *)
Definition small : list sample := [(Fin 0, 1%Q); (Fin (1#1000000), 1%Q); (Fin (2#1000000), 1%Q)].
Lemma small_good : positive_weights small /\ finite_or_nan small.
Proof.
  split; intros x w H; cbn in H; repeat (destruct H as [H|H]; [injection H as <- <-|]); try contradiction; try lra; left; reflexivity.
Qed.
Lemma narrow_labels : exists zw e bb cc lab k, positive_weights zw /\ finite_or_nan zw /\
  fit_column 1 3 0 (1#10) zw = Fitted e bb cc /\ nth_error (axis_labels true bb) k = Some lab /\
  put_in 1 (Fitted e bb cc) lab 0 /\ k = 2.
Proof.
  exists small. do 4 eexists. exists 2. destruct small_good as (A & B). split; [exact A|]. split; [exact B|].
  split; [vm_compute; reflexivity|]. split; [vm_compute; reflexivity|]. split; [vm_compute; reflexivity|reflexivity].
Qed.

Definition ranks : list sample := [(Fin 1, 1%Q); (Fin 2, 1%Q); (Fin 4, 1%Q)].
Lemma ranks_good : positive_weights ranks /\ finite_or_nan ranks.
Proof.
  split; intros x w H; cbn in H; repeat (destruct H as [H|H]; [injection H as <- <-|]); try contradiction; try lra; left; reflexivity.
Qed.
Lemma linear_labels : exists zw e bb cc lab k, positive_weights zw /\ finite_or_nan zw /\
  check_flags_consistency 258 = FlagsOk /\ is_ordered_set 258 = true /\ is_linear_set 258 = true /\
  fit_column 258 3 0 (1#10) zw = Fitted e bb cc /\ nth_error (axis_labels (drawn_continuous 258) bb) k = Some lab /\
  transform_column 258 (Fitted e bb cc) [lab] = Some [Fin (inject_Z (-1))].
Proof.
  exists ranks. do 4 eexists. exists 1. destruct ranks_good as (A & B). split; [exact A|]. split; [exact B|].
  split; [reflexivity|]. split; [reflexivity|]. split; [reflexivity|].
  split; [vm_compute; reflexivity|]. split; [vm_compute; reflexivity|]. vm_compute; reflexivity.
Qed.

Lemma axis_nth c n k : k < n -> nth_error (axis_range c n) k = Some (if c then inject_Z (Z.of_nat k) - (1#2) else inject_Z (Z.of_nat k))%Q.
Proof.
  intro K. unfold axis_range.
  assert (E : nth_error (map (fun k => inject_Z (Z.of_nat k)) (seq 0 n)) k = Some (inject_Z (Z.of_nat k))).
  { rewrite nth_error_map, (nth_error_nth' _ 0) by (rewrite seq_length; exact K). rewrite seq_nth by exact K. reflexivity. }
  destruct c; [rewrite nth_error_map, E; reflexivity|exact E].
Qed.
Lemma axis_length c n : length (axis_range c n) = n.
Proof. unfold axis_range. destruct c; rewrite ?map_length, seq_length; reflexivity. Qed.

Lemma nth_combine {A B} (u : list A) : forall (v : list B) k a b, nth_error u k = Some a -> nth_error v k = Some b -> nth_error (combine u v) k = Some (a, b).
Proof.
  induction u as [|x u IH]; intros v k a b Ha Hb; [destruct k; discriminate|]. destruct v as [|y v]; [destruct k; discriminate|].
  destruct k as [|k]; cbn in *; [congruence|]. apply IH; assumption.
Qed.

Lemma ticks n k : k < n -> exists t c, nth_error (axis_range true n) k = Some t /\
  nth_error (curve_range true (axis_range true n)) k = Some c /\ (t == c - (1#2))%Q.
Proof.
  intro K. set (x := axis_range true n). pose proof (axis_nth true n k K) as Xk. fold x in Xk. cbv iota in Xk.
  assert (Lx : length x = n) by (apply axis_length).
  assert (N : exists v, nth_error (tl x ++ [last x 0 + 1]%Q) k = Some v /\ (v == inject_Z (Z.of_nat k) + (1#2))%Q).
  { destruct (Nat.eq_dec (S k) n) as [E|E].
    - rewrite nth_error_app2 by (destruct x; cbn [tl length] in *; lia).
      assert (Z0 : k - length (tl x) = 0) by (destruct x; cbn [tl length] in *; lia). rewrite Z0. cbn [nth_error].
      eexists. split; [reflexivity|].
      assert (La : last x 0%Q = (inject_Z (Z.of_nat k) - (1#2))%Q).
      { destruct (exists_last (l := x)) as (y & z & Ez); [intro H; rewrite H in Lx; cbn in Lx; lia|]. rewrite Ez, last_last.
        rewrite Ez in Xk, Lx. rewrite app_length in Lx. cbn [length] in Lx. rewrite nth_error_app2 in Xk by lia.
        replace (k - length y) with 0 in Xk by lia. cbn [nth_error] in Xk. congruence. }
      rewrite La. lra.
    - rewrite nth_error_app1 by (destruct x; cbn [tl length] in *; lia). rewrite nth_tl.
      pose proof (axis_nth true n (S k) ltac:(lia)) as Xs. fold x in Xs. cbv iota in Xs. rewrite Xs. eexists. split; [reflexivity|].
      rewrite Nat2Z.inj_succ, <- Z.add_1_r, inject_Z_plus. change (inject_Z 1) with 1%Q. lra. }
  destruct N as (v & Nv & Ev). exists (inject_Z (Z.of_nat k) - (1#2))%Q. eexists. split; [exact Xk|].
  split; [unfold curve_range; rewrite nth_error_map, (nth_combine _ _ k _ _ Xk Nv); reflexivity|].
  cbn [fst snd]. rewrite Ev. change (inject_Z 2) with 2%Q. field.
Qed.
