(** The location regressor with a column that is the same in all rows of the training. *)
From Coq Require Import ZArith QArith List Bool Arith Reals Lia Lra.
From Verif.Model Require Import Num LexBins Train Predict Link Estimators WholeFit.
From Verif.Spec Require Import LexSpec TrainSpec PredictSpec HierSpec InsampleSpec InertSpec ConstantColumnSpec.
From Verif.Proofs Require Import TrainFacts TrainHistory LexFacts PredictFacts NeutralFacts EstimatorFacts LocationFacts CentredFacts PipeMonotone HierWhole InsampleFacts CellFacts InertFacts InertWhole.
Import ListNotations.
Local Open Scope R_scope.

Lemma silent_before n X : forall ms i p, (i <= n)%nat -> length (p_factors p) = length X ->
  (forall m, nth_error ms (n - i) = Some m -> predict_factors m (map (fun x => x n) (map x_bins X)) = repeat 0 (length X)) -> Forall (fun m => m_ext m = false) ms ->
  predict_from i ms p (map x_bins X) = predict_from i (without (n - i) ms) p (map x_bins (map (row_without n) X)).
Proof.
  induction ms as [|m ms IH]; intros i p Hi L Hm He; [reflexivity|]. apply Forall_cons_iff in He as (He & Hr).
  destruct (Nat.eq_dec i n) as [En|En].
  - subst i. rewrite Nat.sub_diag in *. cbn [without predict_from].
    rewrite He, (Hm m eq_refl). unfold add_preds. rewrite vadd_zeros by exact L.
    replace {| p_factors := p_factors p; p_exponents := p_exponents p |} with p by (destruct p; reflexivity). apply predict_after. lia.
  - replace (n - i)%nat with (S (n - S i)) in * by lia. cbn [without predict_from].
    rewrite <- (read_placed n X i i) by (apply place_low; lia). apply IH; [lia|apply shape_kept; assumption|exact Hm|exact Hr].
Qed.

Lemma map2_nth {A B C} (h : A -> B -> C) : forall a b n,
  nth_error (map2 h a b) n = match nth_error a n, nth_error b n with Some x, Some y => Some (h x y) | _, _ => None end.
Proof. induction a as [|x a IH]; intros [|y b] [|n]; try reflexivity; cbn; [destruct (nth_error a n); reflexivity|apply IH]. Qed.

Lemma weights_left mnl c : forall l (D : list sample), length l = length D -> Forall (fun s => 0 < x_w s) D ->
  let v := sumR (map2 (fun b wj => if mnl && Nat.eqb b c then 0 else wj) l (map x_w D)) in
  0 <= v /\ ((exists j, (j < length D)%nat /\ (mnl = false \/ nth j l 0%nat <> c)) -> 0 < v).
Proof.
  induction l as [|b l IH]; intros [|s D] L P; try discriminate.
  - cbn. split; [lra|]. intros (j & J & _). lia.
  - apply Forall_cons_iff in P as (P1 & P2). destruct (IH D ltac:(cbn in L; lia) P2) as (A & B). cbn [map map2 sumR].
    split; [destruct (mnl && (b =? c)%nat); cbv zeta in A; lra|].
    intros ([|j] & J & H).
    + cbn [nth] in H. replace (mnl && (b =? c)%nat) with false; [cbv zeta in A; lra|].
      destruct H as [->|H]; [reflexivity|]. rewrite (proj2 (Nat.eqb_neq b c) H). symmetry. apply andb_false_r.
    + cbn [nth length] in *. assert (J' : (j < length D)%nat) by lia. specialize (B (ex_intro _ j (conj J' H))). cbv zeta in B. destruct (mnl && (b =? c)%nat); lra.
Qed.

Lemma constant_sum c (h : nat -> R) : forall (D : list sample) k, (forall j, (j < length D)%nat -> h (k + j)%nat = c) ->
  forall w, (forall j s, nth_error D j = Some s -> w (k + j)%nat = x_w s) ->
  sumR (map (fun j => w j * h j) (seq k (length D))) = c * sumR (map x_w D).
Proof.
  induction D as [|s D IH]; intros k H w W; [cbn; ring|]. cbn [length seq map sumR].
  rewrite (IH (S k)) with (w := w).
  - pose proof (H 0%nat ltac:(cbn; lia)) as X. rewrite Nat.add_0_r in X. pose proof (W 0%nat s eq_refl) as Y. rewrite Nat.add_0_r in Y. rewrite X, Y. ring.
  - intros j J. replace (S k + j)%nat with (k + S j)%nat by lia. apply H. cbn. lia.
  - intros j s' E. replace (S k + j)%nat with (k + S j)%nat by lia. exact (W (S j) s' E).
Qed.
Lemma weights_pos (D : list sample) : D <> [] -> Forall (fun s => 0 < x_w s) D -> 0 < sumR (map x_w D).
Proof.
  intros N P. assert (G : forall D0, Forall (fun s => 0 < x_w s) D0 -> 0 <= sumR (map x_w D0)).
  { induction 1; cbn; lra. }
  destruct D as [|s D]; [congruence|]. apply Forall_cons_iff in P as (P1 & P2). specialize (G D P2). cbn. lra.
Qed.

Theorem constant_column gm bppf erfinv bad prior gs cfg rate fuel D t n r :
  whole_fit gm bppf erfinv bad LocationRegressor prior gs cfg rate fuel D = Trained t ->
  c_log cfg = false -> binned_rows gs D -> D <> [] -> Forall (fun s => 0 < x_w s) D ->
  (forall i g, nth_error gs i = Some g -> g_mnl g = false \/ exists s, In s D /\ ~ missing_entry (x_bins s i)) ->
  (forall s, In s D -> x_bins s n = r) ->
  forall X, (forall s, In s X -> x_bins s n = r) ->
  whole_predict LocationRegressor prior t X =
  whole_predict LocationRegressor prior (model_without n t) (map (row_without n) X).
Proof.
  intros F Hlog B ND HW HM HC X HX. unfold whole_fit in F.
  destruct (kind_scale LocationRegressor (map x_y D) (map x_w D)) as [scale|] eqn:Es; [|discriminate]. cbv zeta in F.
  set (offset := kind_offset LocationRegressor scale (map x_prior D) (map x_w D)) in F.
  destruct (train gm bppf erfinv bad LocationRegressor prior gs cfg rate fuel D scale offset) as [[st|e]|] eqn:E; try discriminate. injection F as <-.
  unfold train in E. cbv zeta in E.
  match type of E with fit_main _ _ _ _ _ _ _ _ ?p = _ => set (p0 := p) in * end.
  destruct (bind_shaped D gs p0 B) as (W & Hd & Hwh); [apply prior_length|apply zeros_length|].
  set (fl := bind_groups D 0 gs) in *.
  set (calc := fun (i _ : nat) (p : preds) => map (estimate_value bad) (group_estimates gm bppf erfinv LocationRegressor fl (map x_y D) (map x_w D) i p)) in E.
  set (smooth := fun (i _ : nat) (p : preds) => group_smoother gm bppf erfinv bad LocationRegressor gs fl (map x_y D) (map x_w D) i p) in E.
  set (loss := fun p : preds => kind_loss bad LocationRegressor (map x_y D) (map x_w D) (p_factors p)) in E.
  destruct (location_mean_kept cfg fl calc smooth rate loss p0 (length D) (map x_w D) W ltac:(apply map_length) Hlog) with (fuel := fuel) (st := st) as (_ & MK).
  { intros f Hf. apply In_nth_error in Hf as (m & Hm). pose proof (Hd f (nth_error_In _ _ Hm)) as Hd1.
    pose proof (Hwh f (nth_error_In _ _ Hm)) as Hw1. pose proof (proj2 (proj2 W) f (nth_error_In _ _ Hm)) as (L1 & L2).
    destruct (bound_feature _ _ _ _ _ Hm) as (g & Hg & Ef). cbn [Nat.add] in Ef.
    split; [rewrite Ef; reflexivity|]. split; [exact Hd1|].
    assert (LL : length (f_lex f) = length D) by (rewrite Ef; apply lex_rows).
    destruct (weights_left (f_mnl f) (f_finite f) (f_lex f) D LL HW) as (_ & P). apply Rgt_not_eq. apply P. clear P.
    destruct (HM m g Hg) as [M|(s & Is & M)].
    - exists 0%nat. split; [destruct D; [congruence|cbn; lia]|]. left. rewrite Ef. exact M.
    - apply In_nth_error in Is as (j & Hj). exists j. split; [apply nth_error_Some; congruence|]. right.
      assert (S : row_finite_semi_positive (x_bins s m) = true).
      { destruct (row_finite_semi_positive (x_bins s m)) eqn:S; [reflexivity|]. exfalso. apply M. apply semi_positive_iff. exact S. }
      assert (Ej : nth_error (f_rows f) j = Some (x_bins s m)) by (rewrite Ef; cbn [bind_group f_rows]; rewrite nth_error_map, Hj; reflexivity).
      pose proof (proj2 (proj2 (lex_row f Hd1 L2 Hw1 j _ Ej S))). lia. }
  { exact E. }
  unfold whole_predict, model_without. cbn [o_scale o_offset o_groups]. unfold cb_predict.
  replace (@length datarow (map x_bins (map (row_without n) X))) with (length X) by (rewrite !map_length; reflexivity).
  replace (@length datarow (map x_bins X)) with (length X) by (rewrite !map_length; reflexivity).
  assert (PL : linked_column LocationRegressor prior (map (row_without n) X) = linked_column LocationRegressor prior X).
  { unfold linked_column. destruct prior; [|reflexivity]. rewrite map_map. reflexivity. }
  rewrite PL. f_equal. f_equal. unfold predict_extended.
  replace n with (n - 0)%nat at 1 by lia. apply silent_before; [lia|apply prior_length| |].
  - intros m Hm. rewrite Nat.sub_0_r in Hm. rewrite map2_nth in Hm.
    destruct (nth_error fl n) as [f|] eqn:Hf; [|discriminate]. destruct (nth_error (t_feats st) n) as [s|] eqn:Hs; [|discriminate].
    injection Hm as <-.
    destruct (fit_agg cfg fl calc smooth (kind_calibration LocationRegressor fl (map x_w D)) rate loss p0 (length D) W (loop_per_bin gm bppf erfinv bad LocationRegressor _ _ _) fuel st n f s E Hf Hs) as (a & Ea & La & Hl).
    pose proof (Hd f (nth_error_In _ _ Hf)) as Hd1. pose proof (Hwh f (nth_error_In _ _ Hf)) as Hw1.
    pose proof (proj2 (proj2 W) f (nth_error_In _ _ Hf)) as (L1 & L2).
    assert (RA : forall j, (j < length D)%nat -> nth_error (f_rows f) j = Some r).
    { intros j J. destruct (bound_feature _ _ _ _ _ Hf) as (g & _ & Ef). cbn [Nat.add] in Ef. rewrite Ef. cbn [bind_group f_rows].
      rewrite nth_error_map. destruct (nth_error D j) as [s0|] eqn:Ej; [|exfalso; apply nth_error_None in Ej; lia]. cbn. f_equal. apply HC. eapply nth_error_In; eauto. }
    assert (RP : forall j, (j < length D)%nat -> rowpred (store f s) r = contribution f a j).
    { intros j J. apply rowpred_training; auto. intros _ x Hx. exact (Hw1 r x (nth_error_In _ _ (RA j J)) Hx). }
    assert (Z : rowpred (store f s) r = 0).
    { pose proof (MK n f s Hf Hs) as MK1. rewrite Hl in MK1.
      rewrite (constant_sum (rowpred (store f s) r) (contribution f a) D 0 (fun j J => eq_sym (RP j J)) (fun j => nth j (map x_w D) 0)) in MK1.
      - pose proof (weights_pos D ND HW). apply Rmult_integral in MK1 as [Z|Z]; [exact Z|lra].
      - intros j s0 Ej. cbn [Nat.add]. apply nth_error_nth. rewrite nth_error_map, Ej. reflexivity. }
    rewrite predict_factors_rowpred. clear - Z HX. induction X as [|x X IH]; [reflexivity|]. cbn [map length repeat]. rewrite (HX x (or_introl eq_refl)), Z. f_equal.
    apply IH. intros y Hy. apply HX. right. exact Hy.
  - rewrite <- trained_store. unfold trained_model. apply Forall_forall. intros m Hm. apply in_map_iff in Hm as ((f & s) & <- & I).
    apply in_combine_l in I. apply In_nth_error in I as (i & Hi). destruct (bound_feature _ _ _ _ _ Hi) as (g & _ & ->). reflexivity.
Qed.
