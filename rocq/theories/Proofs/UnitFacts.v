(** Binning of a continuous column in other units. *)
From Coq Require Import ZArith NArith QArith List Bool Lia Lqa ZifyBool.
From Verif.Model Require Import Num BinarySearch Flags Ecdf BinTransform Frames Pipe.
From Verif.Spec Require Import SearchSpec BinningSpec FrameSpec PipeSpec.
From Verif.Proofs Require Import NumFacts FnumOrder BinarySearchFacts EcdfFacts ReduceFacts FitFacts TransformFacts FitUser EquivFacts.
Import ListNotations.
Local Open Scope Q_scope.

Section Mono.
Variable f : Q -> Q.
Hypothesis Hf : order_preserving f.
Let u := on_values f.

Lemma u_le a b : fle (u a) (u b) = fle a b.
Proof.
  destruct a as [x| | |], b as [y| | |]; cbn; auto.
  destruct (Qle_bool x y) eqn:E.
  - apply Qle_bool_iff. apply (proj2 (Hf x y)). apply Qle_bool_iff; auto.
  - apply Qle_bool_false. apply Qle_bool_false in E. apply Qnot_le_lt. intro H. apply (proj1 (Hf x y)) in H.
    apply (Qlt_not_le _ _ E H).
Qed.
Lemma u_eq a b : feq (u a) (u b) = feq a b.
Proof. unfold feq. rewrite !u_le. reflexivity. Qed.
Lemma u_nan a : isnan (u a) = isnan a.
Proof. destruct a; reflexivity. Qed.
Lemma u_finite a : isfinite (u a) = isfinite a.
Proof. destruct a; reflexivity. Qed.

Lemma insert_u x l : insert_unique (u x) (map u l) = map u (insert_unique x l).
Proof.
  induction l as [|y r IH]; cbn; auto. rewrite u_eq, u_le, IH.
  destruct (feq x y); auto. destruct (fle x y); reflexivity.
Qed.
Lemma unique_u l : np_unique (map u l) = map u (np_unique l).
Proof. unfold np_unique. induction l as [|x r IH]; cbn; auto. rewrite IH. apply insert_u. Qed.

Definition moved (zw : list (fnum * Q)) : list (fnum * Q) := map (fun p => (u (fst p), snd p)) zw.
Lemma filter_nan l : filter (fun v => negb (isnan v)) (map u l) = map u (filter (fun v => negb (isnan v)) l).
Proof. induction l as [|x r IH]; cbn; auto. rewrite u_nan, IH. destruct (isnan x); reflexivity. Qed.
Lemma z_unique_u zw : z_unique (moved zw) = map u (z_unique zw).
Proof.
  unfold z_unique, moved. rewrite map_map. cbn [fst].
  rewrite <- (map_map fst u). rewrite filter_nan. apply unique_u.
Qed.
Lemma group_u zw k : group_weight (moved zw) (u k) = group_weight zw k.
Proof.
  unfold group_weight, moved. f_equal. induction zw as [|[x w] r IH]; cbn; auto.
  rewrite u_eq. destruct (feq x k); cbn; rewrite IH; reflexivity.
Qed.
Lemma wsum_u zw : cdf_wsum (moved zw) = cdf_wsum zw.
Proof.
  unfold cdf_wsum, moved. f_equal. induction zw as [|[x w] r IH]; cbn; auto.
  rewrite u_nan. destruct (isnan x); cbn; rewrite IH; reflexivity.
Qed.
Lemma cdf_u zw : cdf_values (moved zw) = cdf_values zw.
Proof.
  unfold cdf_values, group_weights. rewrite wsum_u, z_unique_u, map_map.
  rewrite (map_ext _ (group_weight zw)); [reflexivity|]. intro k. apply group_u.
Qed.

Lemma pyget_map {A B} (g : A -> B) l i : pyget (map g l) i = option_map g (pyget l i).
Proof.
  unfold pyget. rewrite map_length. destruct (_ && _)%bool; [apply nth_error_map|].
  destruct (_ && _)%bool; [apply nth_error_map|reflexivity].
Qed.
Lemma removelast_map {A B} (g : A -> B) l : removelast (map g l) = map g (removelast l).
Proof.
  induction l as [|a r IH]; auto. destruct r as [|b r]; auto.
  change (g a :: removelast (map g (b :: r)) = g a :: map g (removelast (b :: r))). rewrite IH. reflexivity.
Qed.
Definition moved_reduce (r : reduce_result) : reduce_result :=
  match r with ReduceOk bb cc => ReduceOk (map u bb) cc | r => r end.
Lemma loop_u todo : forall bx cx share eps tol index prev ab ac,
  reduce_loop todo (map u bx) cx share eps tol index prev (map u ab) ac =
  moved_reduce (reduce_loop todo bx cx share eps tol index prev ab ac).
Proof.
  induction todo as [|n IH]; intros; cbn [reduce_loop]; [reflexivity|].
  set (searched := if Qle_bool (Qmod prev share) (tol * share) then _ else _).
  destruct (Qle_bool searched (1 + tol * share)).
  - destruct (ge_lim _ _ _ _ _) as [i| |]; [|reflexivity|reflexivity].
    rewrite pyget_map. destruct (pyget cx i) as [cv|]; [|reflexivity].
    destruct (pyget bx i) as [b|]; cbn [option_map]; [|reflexivity].
    rewrite <- IH. rewrite map_app. reflexivity.
  - rewrite pyget_map. destruct (pyget bx _) as [b|]; cbn [option_map]; [|reflexivity].
    cbn [moved_reduce]. rewrite map_app, removelast_map. reflexivity.
Qed.
Lemma reduce_u bx cx n eps tol : reduce_cdf (map u bx) cx n eps tol = moved_reduce (reduce_cdf bx cx n eps tol).
Proof.
  unfold reduce_cdf. destruct (n <? 2)%Z; [reflexivity|]. rewrite pyget_map.
  destruct (pyget bx 0) as [b|]; cbn [option_map]; [|reflexivity].
  apply (loop_u _ bx cx _ _ _ 0%Z 0 [b] [0]).
Qed.

(** The learned binning: boundaries on the new scale, the same cumulative weights. *)
Definition moved_fit (eps : Q) (r : fit_result) : fit_result :=
  match r with
  | Fitted e bb cc => Fitted (fscale eps (minimal_difference (map u bb))) (map u bb) cc
  | r => r
  end.
Lemma fit_u prop n eps tol zw :
  fit_column prop n eps tol (moved zw) = moved_fit eps (fit_column prop n eps tol zw).
Proof.
  unfold fit_column. rewrite z_unique_u, cdf_u, reduce_u.
  destruct (z_unique zw) as [|b0 bs]; [reflexivity|]. cbn [map].
  destruct (cdf_values zw) as [|c0 cs]; [reflexivity|].
  destruct (is_ordered_set prop || is_unordered_set prop).
  - cbn [length]. rewrite map_length. destruct (Nat.eqb _ _); reflexivity.
  - destruct (reduce_cdf _ _ _ _ _); reflexivity.
Qed.
End Mono.

(** ** Searching *)
Lemma ge_loop_same z z' x x' : Forall2 (fun v v' => fge v x = fge v' x') z z' -> forall fuel il ir,
  ge_loop fuel z x il ir = ge_loop fuel z' x' il ir.
Proof.
  intros Hz. induction fuel as [|fuel IH]; intros il ir; cbn [ge_loop]; auto.
  destruct (il <? ir - 1)%Z; auto. pose proof (F2_pyget _ _ _ ((il + ir) / 2) Hz) as P.
  destruct (pyget z _), (pyget z' _); try contradiction; auto. rewrite P. destruct (fge _ x'); apply IH.
Qed.
Lemma ge_search_same z z' x x' b : Forall2 (fun v v' => fge v x = fge v' x') z z' -> ge_search z x b = ge_search z' x' b.
Proof. intro H. unfold ge_search. rewrite (Forall2_len _ _ _ H). apply ge_loop_same; auto. Qed.

Lemma single_search v x : ge_search [v] x true = Found 0.
Proof. reflexivity. Qed.

(** ** Differences of boundaries *)
Lemma flt_pos_diff a b : flt a b = true -> flt (Fin 0) (fsub b a) = true.
Proof.
  destruct a as [x| | |], b as [y| | |]; cbn; try discriminate; auto. intro H.
  apply negb_true_iff in H. apply Qle_bool_false in H. apply negb_true_iff. apply Qle_bool_false. lra.
Qed.
Lemma no_gap bb : increasing (tl bb) -> filter (fun d => flt (Fin 0) d) (differences bb) = [] -> (length (tl bb) <= 1)%nat.
Proof.
  intros Hi H. destruct bb as [|b [|t0 [|t1 r]]]; cbn [tl length]; try lia. exfalso.
  assert (L : flt t0 t1 = true) by (apply (Hi 0%nat 1%nat); auto).
  assert (I : In (fsub t1 t0) (filter (fun d => flt (Fin 0) d) (differences (b :: t0 :: t1 :: r)))).
  { apply filter_In. split; [|apply flt_pos_diff; auto]. right. left. reflexivity. }
  rewrite H in I. contradiction.
Qed.

Definition times (a : Q) (v : fnum) : fnum := match v with Fin q => Fin (a * q) | _ => v end.
Lemma times_le a x y : 0 < a -> fle (times a x) (times a y) = fle x y.
Proof.
  intro Ha. destruct x as [q| | |], y as [r| | |]; cbn; auto.
  destruct (Qle_bool q r) eqn:E.
  - apply Qle_bool_iff in E. apply Qle_bool_iff. nra.
  - apply Qle_bool_false in E. apply Qle_bool_false. nra.
Qed.
Lemma times_pos a d : 0 < a -> flt (Fin 0) (times a d) = flt (Fin 0) d.
Proof.
  intro Ha. destruct d as [q| | |]; cbn; auto. f_equal.
  destruct (Qle_bool q 0) eqn:E.
  - apply Qle_bool_iff in E. apply Qle_bool_iff. nra.
  - apply Qle_bool_false in E. apply Qle_bool_false. nra.
Qed.
Lemma sub_affine a s x y : feqv (fsub (on_values (affine a s) x) (on_values (affine a s) y)) (times a (fsub x y)).
Proof. destruct x, y; cbn; auto. unfold affine. ring. Qed.
Lemma differences_affine a s l : Forall2 feqv (differences (map (on_values (affine a s)) l)) (map (times a) (differences l)).
Proof.
  induction l as [|x r IH]; [constructor|]. destruct r as [|y r]; [constructor|].
  cbn [map]. change (Forall2 feqv (fsub (on_values (affine a s) y) (on_values (affine a s) x) :: differences (map (on_values (affine a s)) (y :: r)))
    (times a (fsub y x) :: map (times a) (differences (y :: r)))).
  constructor; auto. apply sub_affine.
Qed.
Lemma filter_times a l : 0 < a -> filter (fun d => flt (Fin 0) d) (map (times a) l) = map (times a) (filter (fun d => flt (Fin 0) d) l).
Proof. intro Ha. induction l as [|d r IH]; cbn [map filter]; auto. rewrite times_pos by auto. destruct (flt _ d); cbn [map]; rewrite IH; auto. Qed.
Lemma fold_times a l : 0 < a -> forall d, fold_left fmin (map (times a) l) (times a d) = times a (fold_left fmin l d).
Proof.
  intro Ha. induction l as [|x r IH]; intro d; cbn [map fold_left]; auto. rewrite <- IH. f_equal.
  unfold fmin. rewrite times_le by auto. destruct (fle d x); reflexivity.
Qed.
Lemma min_affine a s l : 0 < a -> filter (fun d => flt (Fin 0) d) (differences l) <> [] ->
  feqv (minimal_difference (map (on_values (affine a s)) l)) (times a (minimal_difference l)).
Proof.
  intros Ha Hne. unfold minimal_difference.
  pose proof (filter_comp (fun d => flt (Fin 0) d) _ _ (fun x y E => flt_comp _ _ _ _ (feqv_refl (Fin 0)) E) (differences_affine a s l)) as F.
  rewrite filter_times in F by auto. destruct (filter _ (differences l)) as [|d r]; [congruence|].
  cbn [map] in F. destruct (filter _ (differences (map _ l))) as [|d' r']; [inversion F|].
  rewrite <- fold_times by auto. inversion F; subst. apply fold_fmin_comp; auto.
Qed.

Lemma affine_order a s : 0 < a -> order_preserving (affine a s).
Proof. intros Ha q r. unfold affine. split; intro H; nra. Qed.

(** ** The bin of a value in both units *)
Lemma compare_affine a s eps d d' x v : 0 < a -> feqv d' (times a d) ->
  fge v (fsub (Fin x) (fscale eps d)) =
  fge (on_values (affine a s) v) (fsub (on_values (affine a s) (Fin x)) (fscale eps d')).
Proof.
  intros Ha Hd. unfold fge. destruct d as [q| | |], d' as [q'| | |]; cbn in Hd; try contradiction.
  - destruct v as [y| | |]; cbn; auto. unfold affine.
    destruct (Qle_bool (x + - (eps * q)) y) eqn:E; symmetry.
    + apply Qle_bool_iff in E. apply Qle_bool_iff. rewrite Hd. nra.
    + apply Qle_bool_false in E. apply Qle_bool_false. rewrite Hd. nra.
  - destruct v; reflexivity.
  - destruct v; reflexivity.
  - destruct v; reflexivity.
Qed.

Lemma index_affine a s eps bb x : 0 < a -> increasing (tl bb) -> bb <> [] ->
  cont_index (tl (map (on_values (affine a s)) bb)) (fscale eps (minimal_difference (map (on_values (affine a s)) bb))) (on_values (affine a s) (Fin x)) =
  cont_index (tl bb) (fscale eps (minimal_difference bb)) (Fin x).
Proof.
  intros Ha Hi Hne.
  assert (Et : forall l, tl (map (on_values (affine a s)) l) = map (on_values (affine a s)) (tl l)) by (intros [|]; reflexivity).
  rewrite Et. destruct (filter (fun d => flt (Fin 0) d) (differences bb)) as [|d0 dr] eqn:Ef.
  - apply no_gap in Ef; auto. destruct (tl bb) as [|t [|t1 r]]; cbn [length] in Ef; try lia; reflexivity.
  - unfold cont_index. rewrite (ge_search_same _ (tl bb) _ (fsub (Fin x) (fscale eps (minimal_difference bb)))); [reflexivity|].
    assert (M : feqv (minimal_difference (map (on_values (affine a s)) bb)) (times a (minimal_difference bb))).
    { apply min_affine; auto. rewrite Ef. discriminate. }
    generalize (tl bb). intro l. induction l as [|v r IH]; constructor; auto. symmetry. apply compare_affine; auto.
Qed.

(** ** Whole columns *)
Lemma kind_of_continuous p : check_flags_consistency p = FlagsOk -> is_continuous_set p = true ->
  is_ordered_set p || is_unordered_set p = false.
Proof. intros Hc Hk. rewrite (consistent_kind _ Hc) in Hk. apply negb_true_iff in Hk. auto. Qed.

Lemma plain_finite p x : has_magic_missing_set p = false -> is_finite_prop p x = isfinite x.
Proof. intro H. unfold is_finite_prop. rewrite H. reflexivity. Qed.

Lemma no_values zw : z_unique zw = [] \/ (exists x w, In (x, w) zw /\ x <> NaN).
Proof.
  induction zw as [|[x w] r IH]; [left; reflexivity|]. destruct x as [q| | |].
  1,2,3: right; eexists _, w; split; [left; reflexivity|discriminate].
  destruct IH as [E|(y & v & Hin & Hy)].
  - left. unfold z_unique in *. cbn. exact E.
  - right. exists y, v. split; auto. right; auto.
Qed.

(** The learned binning of a continuous column: none, an error, or increasing boundaries
    taken from the training values. *)
Lemma fit_cases p n eps tol zw : check_flags_consistency p = FlagsOk -> is_continuous_set p = true ->
  positive_weights zw -> 0 <= tol < 1 -> 0 <= eps -> ((2 <= n)%Z -> eps < (1 - tol) / inject_Z n) ->
  fit_column p n eps tol zw = FitNone eps \/ fit_column p n eps tol zw = RaiseTooFewBins \/
  exists bb cc, fit_column p n eps tol zw = Fitted (fscale eps (minimal_difference bb)) bb cc /\
    increasing (tl bb) /\ bb <> [] /\ sorted_array (tl bb) /\ forall v, In v bb -> In v (map fst zw).
Proof.
  intros Hc Hk Hp Ht He Hn. destruct (no_values zw) as [E|Hx].
  - left. unfold fit_column. rewrite E. reflexivity.
  - destruct (Z_lt_dec n 2) as [L|L].
    + unfold fit_column. destruct (z_unique zw) as [|b0 bs]; [left; reflexivity|].
      destruct (cdf_values zw) as [|c0 cs]; [left; reflexivity|].
      rewrite kind_of_continuous by auto. unfold reduce_cdf.
      replace (n <? 2)%Z with true by lia. auto.
    + right. right. assert (H2 : (2 <= n)%Z) by lia.
      destruct (fit_continuous p n eps tol zw Hc Hk Hp Hx H2 Ht He (Hn H2)) as (e & bb & cc & zs & cs & Ef & D & V & _).
      pose proof (fit_column_shape p n eps tol zw H2) as S. rewrite Ef in S. destruct S as (-> & Hs & _ & Hne & _).
      exists bb, cc. split; [auto|]. split; [apply V|]. split; [auto|]. split.
      * pose proof (fitted_transform p n eps tol zw _ bb cc [] Hc H2 Ef) as [_ S]. exact S.
      * intros v Hv.
        assert (I : In v (z_unique zw)).
        { unfold fit_column in Ef. rewrite kind_of_continuous in Ef by auto.
          destruct (z_unique zw) as [|b0 bs] eqn:Ez; [discriminate|].
          destruct (cdf_values zw) as [|c0 cs0] eqn:Ec; [discriminate|].
          destruct (reduce_sorted (b0 :: bs) (c0 :: cs0) n eps tol) as (bb' & cc' & Er & _ & _ & _ & Hin); auto.
          - rewrite <- Ez. apply StrictSorted_sorted_array. apply z_unique_sorted.
          - pose proof (cdf_values_length zw) as Hl. rewrite Ez, Ec in Hl. cbn [length] in *. lia.
          - rewrite Er in Ef. injection Ef as _ <- _. apply Hin. auto. }
        apply np_unique_in in I. apply filter_In in I. apply I.
Qed.

Lemma positive_moved f zw : positive_weights zw -> positive_weights (moved f zw).
Proof.
  intros H x w Hin. unfold moved in Hin. apply in_map_iff in Hin. destruct Hin as ([y v] & E & Hin).
  cbn in E. injection E as _ <-. apply (H y v Hin).
Qed.

Lemma tl_map {A B} (g : A -> B) l : tl (map g l) = map g (tl l).
Proof. destruct l; reflexivity. Qed.

Lemma units_column p n eps tol zw xs a s : 0 < a ->
  check_flags_consistency p = FlagsOk -> is_continuous_set p = true -> has_magic_missing_set p = false ->
  positive_weights zw -> 0 <= tol < 1 -> 0 <= eps -> ((2 <= n)%Z -> eps < (1 - tol) / inject_Z n) ->
  transform_column p (fit_column p n eps tol (moved (affine a s) zw)) (map (on_values (affine a s)) xs) =
  transform_column p (fit_column p n eps tol zw) xs.
Proof.
  intros Ha Hc Hk Hm Hp Ht He Hn. pose proof (affine_order a s Ha) as Hf.
  pose proof (fit_cases p n eps tol (moved (affine a s) zw) Hc Hk (positive_moved _ _ Hp) Ht He Hn) as C'.
  rewrite (fit_u _ Hf) in *.
  destruct (fit_cases p n eps tol zw Hc Hk Hp Ht He Hn) as [E|[E|(bb & cc & E & Hi & Hne & Hs & _)]]; rewrite E in *; cbn [moved_fit] in *.
  - cbn [transform_column]. rewrite map_map. reflexivity.
  - reflexivity.
  - destruct C' as [D|[D|(bb' & cc' & D & Hi' & Hne' & Hs' & _)]]; try discriminate.
    injection D as D1 D2 D3. subst bb' cc'.
    rewrite !transform_elementwise; auto; try congruence.
    f_equal. rewrite map_map. apply map_ext. intro x. unfold tvalue. rewrite !plain_finite, u_finite, Hk by auto.
    destruct x as [q| | |]; cbn [isfinite]; try reflexivity. f_equal. f_equal. apply index_affine; auto.
Qed.

(** ** Order-preserving scales *)
Lemma min_attained l : filter (fun d => flt (Fin 0) d) (differences l) <> [] ->
  exists x y, In x l /\ In y l /\ minimal_difference l = fsub y x /\ flt (Fin 0) (fsub y x) = true.
Proof.
  intro Hne. unfold minimal_difference.
  assert (D : forall d, In d (filter (fun d => flt (Fin 0) d) (differences l)) -> exists x y, In x l /\ In y l /\ d = fsub y x /\ flt (Fin 0) (fsub y x) = true).
  { intros d Hd. apply filter_In in Hd. destruct Hd as [Hd Hpos]. clear Hne.
    induction l as [|x r IH]; [contradiction|]. destruct r as [|y r]; [contradiction|].
    change (In d (fsub y x :: differences (y :: r))) in Hd. destruct Hd as [<-|Hd].
    - exists x, y. cbn [In]. auto.
    - destruct (IH Hd) as (x' & y' & H1 & H2 & H3). exists x', y'. split; [right; auto|]. split; [right; auto|]. auto. }
  destruct (filter _ _) as [|d r]; [congruence|]. clear Hne.
  assert (F : forall r d, In (fold_left fmin r d) (d :: r)).
  { clear. induction r as [|x r IH]; intro d; [left; reflexivity|]. cbn [fold_left].
    destruct (IH (fmin d x)) as [E|H]; [|right; right; auto]. rewrite <- E. unfold fmin.
    destruct (fle d x); [left|right; left]; auto. }
  apply D. apply F.
Qed.

Lemma spread_index eps L bb q : (forall x y u v, In (Fin x) L -> In (Fin y) L -> In (Fin u) L -> In (Fin v) L -> x < y -> eps * (v - u) < y - x) ->
  0 <= eps -> (forall v, In v L -> isfinite v = true \/ v = NaN) -> increasing (tl bb) -> (forall v, In v bb -> In v L /\ v <> NaN) -> In (Fin q) L ->
  cont_index (tl bb) (fscale eps (minimal_difference bb)) (Fin q) = match ge_search (tl bb) (Fin q) true with Found i => i | _ => (-1)%Z end.
Proof.
  intros Hsp He Hfin Hi Hbb Hq.
  assert (Hb : forall v, In v bb -> exists x, v = Fin x /\ In (Fin x) L).
  { intros v Hv. destruct (Hbb v Hv) as [H1 H2]. destruct (Hfin v H1) as [H|H]; [|congruence].
    destruct v as [x| | |]; try discriminate. exists x. auto. }
  unfold cont_index. destruct (filter (fun d => flt (Fin 0) d) (differences bb)) as [|d0 dr] eqn:Ef.
  - apply no_gap in Ef; auto. destruct (tl bb) as [|t [|t1 r]]; cbn [length] in Ef; try lia; reflexivity.
  - destruct (min_attained bb) as (x & y & Hx & Hy & -> & Hpos); [rewrite Ef; discriminate|].
    destruct (Hb x Hx) as (x' & -> & Lx). destruct (Hb y Hy) as (y' & -> & Ly). cbn [fsub fneg fadd fscale] in *.
    change (flt (Fin 0) (Fin (y' + - x')) = true) in Hpos. apply flt_Fin in Hpos.
    rewrite (ge_search_same (tl bb) (tl bb) _ (Fin q)); [reflexivity|].
    assert (Hz : forall v, In v (tl bb) -> In v bb) by (destruct bb; cbn; auto).
    revert Hz. generalize (tl bb). intros l Hz. induction l as [|v r IH]; constructor; [|apply IH; intros; apply Hz; right; auto].
    destruct (Hb v (Hz v (or_introl eq_refl))) as (t & -> & Lt). unfold fge. cbn [fle].
    assert (P : 0 <= eps * (y' + - x')) by (apply Qmult_le_0_compat; lra).
    destruct (Qle_bool q t) eqn:E.
    + apply Qle_bool_iff in E. apply Qle_bool_iff. lra.
    + apply Qle_bool_false in E. apply Qle_bool_false.
      pose proof (Hsp t q x' y' Lt Hq Lx Ly E). lra.
Qed.

Lemma order_column f p n tol zw xs : order_preserving f ->
  check_flags_consistency p = FlagsOk -> is_continuous_set p = true -> has_magic_missing_set p = false ->
  positive_weights zw -> 0 <= tol < 1 -> ((2 <= n)%Z -> (1 # 1000000000) < (1 - tol) / inject_Z n) ->
  finite_or_nan zw -> well_spread (map fst zw) -> well_spread (map (on_values f) (map fst zw)) ->
  (forall x, In x xs -> isfinite x = true -> In x (map fst zw)) ->
  transform_column p (fit_column p n (1 # 1000000000) tol (moved f zw)) (map (on_values f) xs) =
  transform_column p (fit_column p n (1 # 1000000000) tol zw) xs.
Proof.
  intros Hf Hc Hk Hm Hp Ht Hn Hfin Hw Hw' Hxs. set (eps := 1 # 1000000000) in *.
  assert (He : 0 <= eps) by (unfold eps; discriminate).
  pose proof (fit_cases p n eps tol (moved f zw) Hc Hk (positive_moved _ _ Hp) Ht He Hn) as C'.
  rewrite (fit_u _ Hf) in *.
  assert (Hfin1 : forall v, In v (map fst zw) -> isfinite v = true \/ v = NaN).
  { intros v Hv. apply in_map_iff in Hv. destruct Hv as ([x w] & <- & Hin). apply (Hfin x w Hin). }
  assert (Hfin2 : forall v, In v (map (on_values f) (map fst zw)) -> isfinite v = true \/ v = NaN).
  { intros v Hv. apply in_map_iff in Hv. destruct Hv as (x & <- & Hin). destruct (Hfin1 x Hin) as [H| ->]; [|right; reflexivity].
    left. rewrite u_finite. auto. }
  destruct (fit_cases p n eps tol zw Hc Hk Hp Ht He Hn) as [E|[E|(bb & cc & E & Hi & Hne & Hs & Hin)]]; rewrite E in *; cbn [moved_fit] in *.
  - cbn [transform_column]. rewrite map_map. reflexivity.
  - reflexivity.
  - destruct C' as [D|[D|(bb' & cc' & D & Hi' & Hne' & Hs' & _)]]; try discriminate.
    injection D as D1 D2 D3. subst bb' cc'.
    rewrite !transform_elementwise; auto; try congruence.
    f_equal. rewrite map_map. apply map_ext_in. intros x Hx. unfold tvalue. rewrite !plain_finite, u_finite, Hk by auto.
    destruct (isfinite x) eqn:Ex; [|reflexivity]. specialize (Hxs x Hx Ex). destruct x as [q| | |]; try discriminate.
    assert (Hnn : forall v, In v bb -> v <> NaN).
    { pose proof E as E'. unfold fit_column in E'. rewrite kind_of_continuous in E' by auto.
      destruct (Z_lt_dec n 2) as [L|L].
      - exfalso. unfold reduce_cdf in E'. replace (n <? 2)%Z with true in E' by lia.
        destruct (z_unique zw); [discriminate|]. destruct (cdf_values zw); discriminate.
      - pose proof (fit_column_shape p n eps tol zw ltac:(lia)) as S. rewrite E in S. destruct S as (_ & [S _] & _).
        rewrite Forall_forall in S. exact S. }
    f_equal. f_equal. change (on_values f (Fin q)) with (Fin (f q)).
    rewrite (spread_index eps (map (on_values f) (map fst zw)) (map (on_values f) bb)); auto.
    + rewrite (spread_index eps (map fst zw) bb); auto.
      rewrite tl_map. rewrite (ge_search_same _ (tl bb) _ (Fin q)); [reflexivity|].
      generalize (tl bb). intro l. induction l as [|v r IH]; constructor; auto. unfold fge. apply (u_le f Hf (Fin q) v).
    + intros v Hv. apply in_map_iff in Hv. destruct Hv as (v0 & <- & Hv). split.
      * apply in_map. auto.
      * intro N. apply (Hnn v0 Hv). destruct v0; cbn in N; congruence.
    + change (Fin (f q)) with (on_values f (Fin q)). apply in_map. auto.
Qed.
