(** Numerically equal training data give the same transform (C08, C09). *)
From Coq Require Import ZArith NArith QArith List Bool Lia Lqa ZifyBool Permutation.
From Verif.Model Require Import Num BinarySearch Flags Ecdf BinTransform.
From Verif.Spec Require Import SearchSpec BinningSpec.
From Verif.Proofs Require Import NumFacts FnumOrder BinarySearchFacts EcdfFacts ReduceFacts FitFacts TransformFacts.
Import ListNotations.
Local Open Scope Q_scope.

(** Same float value. *)
Definition feqv (a b : fnum) : Prop :=
  match a, b with
  | Fin x, Fin y => x == y
  | PInf, PInf | NInf, NInf | NaN, NaN => True
  | _, _ => False
  end.

Lemma feqv_refl a : feqv a a.
Proof. destruct a; cbn; auto. reflexivity. Qed.
Lemma feq_feqv a b : feq a b = true -> feqv a b.
Proof. destruct a, b; cbn; auto; try discriminate. apply feq_Fin. Qed.

Lemma Qle_bool_comp a a' b b' : a == a' -> b == b' -> Qle_bool a b = Qle_bool a' b'.
Proof. intros H H'. rewrite H, H'. reflexivity. Qed.

Lemma fle_comp a a' b b' : feqv a a' -> feqv b b' -> fle a b = fle a' b'.
Proof.
  destruct a, a', b, b'; cbn; try contradiction; try reflexivity. intros. apply Qle_bool_comp; auto.
Qed.
Lemma flt_comp a a' b b' : feqv a a' -> feqv b b' -> flt a b = flt a' b'.
Proof.
  intros H H'. pose proof (fle_comp b b' a a' H' H) as E. unfold flt. rewrite E.
  destruct a, a', b, b'; cbn in *; try contradiction; reflexivity.
Qed.
Lemma fneg_comp a a' : feqv a a' -> feqv (fneg a) (fneg a').
Proof. destruct a, a'; cbn; try contradiction; auto. intro H. rewrite H. reflexivity. Qed.
Lemma fadd_comp a a' b b' : feqv a a' -> feqv b b' -> feqv (fadd a b) (fadd a' b').
Proof.
  destruct a, a', b, b'; cbn; try contradiction; auto. intros H H'. rewrite H, H'. reflexivity.
Qed.
Lemma fsub_comp a a' b b' : feqv a a' -> feqv b b' -> feqv (fsub a b) (fsub a' b').
Proof. intros. apply fadd_comp; auto. apply fneg_comp; auto. Qed.
Lemma fabs_comp a a' : feqv a a' -> feqv (fabs a) (fabs a').
Proof.
  destruct a as [x| | |], a' as [y| | |]; cbn; try contradiction; auto. intro H.
  rewrite (Qle_bool_comp 0 0 x y) by (auto; reflexivity).
  destruct (Qle_bool 0 y); rewrite H; reflexivity.
Qed.
Lemma check_equal_comp a a' b b' e e' : feqv a a' -> feqv b b' -> feqv e e' ->
  check_equal a b e = check_equal a' b' e'.
Proof.
  intros H H' He. unfold check_equal.
  assert (E : fle (fabs (fsub a b)) e = fle (fabs (fsub a' b')) e').
  { apply fle_comp; auto. apply fabs_comp, fsub_comp; auto. }
  destruct a, a'; cbn in H; try contradiction; auto. destruct b, b'; cbn in H'; try contradiction; auto.
Qed.

(** ** Lists *)
Lemma F2_nth_some {A B} (R : A -> B -> Prop) l l' : Forall2 R l l' -> forall i,
  match nth_error l i, nth_error l' i with
  | Some a, Some b => R a b
  | None, None => True
  | _, _ => False
  end.
Proof. induction 1 as [|a b l l' Hab H IH]; intros [|i]; cbn; auto. apply IH. Qed.

Lemma F2_pyget {A B} (R : A -> B -> Prop) l l' i : Forall2 R l l' ->
  match pyget l i, pyget l' i with
  | Some a, Some b => R a b
  | None, None => True
  | _, _ => False
  end.
Proof.
  intro H. unfold pyget. rewrite (Forall2_len _ _ _ H).
  destruct (_ && _); [apply F2_nth_some; auto|]. destruct (_ && _); [apply F2_nth_some; auto|exact I].
Qed.

Lemma F2_tl {A B} (R : A -> B -> Prop) l l' : Forall2 R l l' -> Forall2 R (tl l) (tl l').
Proof. destruct 1; cbn; auto. Qed.
Lemma F2_removelast {A B} (R : A -> B -> Prop) l l' : Forall2 R l l' -> Forall2 R (removelast l) (removelast l').
Proof.
  induction 1 as [|a b l l' Hab H IH]; [constructor|]. cbn [removelast].
  destruct H; [constructor|]. constructor; auto.
Qed.
Lemma F2_snoc {A B} (R : A -> B -> Prop) l l' a b : Forall2 R l l' -> R a b -> Forall2 R (l ++ [a]) (l' ++ [b]).
Proof. intros. apply Forall2_app; auto. Qed.

Lemma le_loop_comp z z' x x' : Forall2 feqv z z' -> feqv x x' -> forall fuel il ir,
  le_loop fuel z x il ir = le_loop fuel z' x' il ir.
Proof.
  intros Hz Hx. induction fuel as [|fuel IH]; intros il ir; cbn [le_loop]; auto.
  destruct (il <? ir - 1)%Z; auto. pose proof (F2_pyget _ _ _ ((il + ir) / 2) Hz) as P.
  destruct (pyget z _), (pyget z' _); try contradiction; auto.
  rewrite (fle_comp _ _ _ _ P Hx), !IH. reflexivity.
Qed.
Lemma ge_loop_comp z z' x x' : Forall2 feqv z z' -> feqv x x' -> forall fuel il ir,
  ge_loop fuel z x il ir = ge_loop fuel z' x' il ir.
Proof.
  intros Hz Hx. induction fuel as [|fuel IH]; intros il ir; cbn [ge_loop]; auto.
  destruct (il <? ir - 1)%Z; auto. pose proof (F2_pyget _ _ _ ((il + ir) / 2) Hz) as P.
  destruct (pyget z _), (pyget z' _); try contradiction; auto.
  unfold fge. rewrite (fle_comp _ _ _ _ Hx P), !IH. reflexivity.
Qed.
Lemma ge_lim_comp z z' x x' b l r : Forall2 feqv z z' -> feqv x x' -> ge_lim z x b l r = ge_lim z' x' b l r.
Proof. intros Hz Hx. unfold ge_lim. rewrite (Forall2_len _ _ _ Hz). apply ge_loop_comp; auto. Qed.
Lemma ge_search_comp z z' x x' b : Forall2 feqv z z' -> feqv x x' -> ge_search z x b = ge_search z' x' b.
Proof. intros Hz Hx. unfold ge_search. rewrite (Forall2_len _ _ _ Hz). apply ge_loop_comp; auto. Qed.
Lemma le_search_comp z z' x x' b : Forall2 feqv z z' -> feqv x x' -> le_search z x b = le_search z' x' b.
Proof. intros Hz Hx. unfold le_search. rewrite (Forall2_len _ _ _ Hz). apply le_loop_comp; auto. Qed.

Lemma F2_map_Fin l l' : Forall2 Qeq l l' -> Forall2 feqv (map Fin l) (map Fin l').
Proof. induction 1; constructor; auto. Qed.

(** ** Reduction *)
Inductive reduce_eqv : reduce_result -> reduce_result -> Prop :=
| RE_ok bb bb' cc cc' : Forall2 feqv bb bb' -> Forall2 Qeq cc cc' -> reduce_eqv (ReduceOk bb cc) (ReduceOk bb' cc')
| RE_n : reduce_eqv RaiseNBins RaiseNBins
| RE_i : reduce_eqv ReduceIndexError ReduceIndexError.

Lemma Qmod_comp a a' b : a == a' -> Qmod a b == Qmod a' b.
Proof.
  intro H. unfold Qmod. assert (E : a / b == a' / b) by (rewrite H; reflexivity).
  rewrite (Qround.Qfloor_comp _ _ E), H. reflexivity.
Qed.

Lemma reduce_loop_comp b b' c c' share eps tol : Forall2 feqv b b' -> Forall2 Qeq c c' ->
  forall todo index prev prev' ab ab' ac ac', prev == prev' -> Forall2 feqv ab ab' -> Forall2 Qeq ac ac' ->
  reduce_eqv (reduce_loop todo b c share eps tol index prev ab ac)
             (reduce_loop todo b' c' share eps tol index prev' ab' ac').
Proof.
  intros Hb Hc. induction todo as [|todo IH]; intros index prev prev' ab ab' ac ac' Hp Hab Hac;
    cbn [reduce_loop]; [constructor; auto|].
  pose proof (Qmod_comp prev prev' share Hp) as Hm.
  rewrite (Qle_bool_comp (Qmod prev share) (Qmod prev' share) (tol * share) (tol * share)) by (auto; reflexivity).
  set (t := Qle_bool (Qmod prev' share) (tol * share)).
  set (s := if t then prev + share - Qmod prev share else prev + share).
  set (s' := if t then prev' + share - Qmod prev' share else prev' + share).
  assert (Hs : s == s').
  { unfold s, s'. destruct t; rewrite ?Hm, Hp; reflexivity. }
  rewrite (Qle_bool_comp s s' _ _ Hs (Qeq_refl _)), (Forall2_len _ _ _ Hc).
  destruct (Qle_bool s' _).
  - rewrite (ge_lim_comp _ (map Fin c') _ (Fin (s' - eps))).
    2:{ apply F2_map_Fin; auto. }
    2:{ cbn. rewrite Hs. reflexivity. }
    destruct (ge_lim _ _ _ _ _) as [i| |]; try constructor.
    pose proof (F2_pyget _ _ _ i Hc) as P1. pose proof (F2_pyget _ _ _ i Hb) as P2.
    destruct (pyget c i), (pyget c' i); try contradiction; [|constructor].
    destruct (pyget b i), (pyget b' i); try contradiction; [|constructor].
    apply IH; auto; apply F2_snoc; auto.
  - pose proof (F2_pyget _ _ _ (Z.of_nat (length c') - 1) Hb) as P2.
    destruct (pyget b _), (pyget b' _); try contradiction; constructor.
    + apply F2_snoc; auto. apply F2_removelast; auto.
    + apply F2_snoc; [|reflexivity]. apply F2_removelast; auto.
Qed.

Lemma reduce_comp b b' c c' n eps tol : Forall2 feqv b b' -> Forall2 Qeq c c' ->
  reduce_eqv (reduce_cdf b c n eps tol) (reduce_cdf b' c' n eps tol).
Proof.
  intros Hb Hc. unfold reduce_cdf. destruct (n <? 2)%Z; [constructor|].
  pose proof (F2_pyget _ _ _ 0%Z Hb) as P. destruct (pyget b 0), (pyget b' 0); try contradiction; [|constructor].
  apply reduce_loop_comp; auto. reflexivity.
  constructor; [reflexivity|constructor].
Qed.

Lemma differences_comp l l' : Forall2 feqv l l' -> Forall2 feqv (differences l) (differences l').
Proof.
  induction 1 as [|a b l l' Hab H IH]; [constructor|].
  destruct H as [|a1 b1 l l' H1 H]; [constructor|].
  change (Forall2 feqv (fsub a1 a :: differences (a1 :: l)) (fsub b1 b :: differences (b1 :: l'))).
  constructor; auto. apply fsub_comp; auto.
Qed.
Lemma filter_comp f l l' : (forall a b, feqv a b -> f a = f b) -> Forall2 feqv l l' -> Forall2 feqv (filter f l) (filter f l').
Proof.
  intros Hf. induction 1 as [|a b l l' Hab H IH]; cbn; [constructor|].
  rewrite (Hf a b Hab). destruct (f b); auto.
Qed.
Lemma fold_fmin_comp l l' : Forall2 feqv l l' -> forall d d', feqv d d' -> feqv (fold_left fmin l d) (fold_left fmin l' d').
Proof.
  induction 1 as [|a b l l' Hab H IH]; intros d d' Hd; cbn; auto. apply IH.
  unfold fmin. rewrite (fle_comp _ _ _ _ Hd Hab). destruct (fle d' b); auto.
Qed.
Lemma minimal_difference_comp l l' : Forall2 feqv l l' -> feqv (minimal_difference l) (minimal_difference l').
Proof.
  intro H. unfold minimal_difference.
  assert (F : Forall2 feqv (filter (fun d => flt (Fin 0) d) (differences l)) (filter (fun d => flt (Fin 0) d) (differences l'))).
  { apply filter_comp; [|apply differences_comp; auto]. intros. apply flt_comp; auto. apply feqv_refl. }
  destruct F; [apply feqv_refl|]. apply fold_fmin_comp; auto.
Qed.
Lemma fscale_comp e a b : feqv a b -> feqv (fscale e a) (fscale e b).
Proof. destruct a, b; cbn; try contradiction; auto. intro H. rewrite H. reflexivity. Qed.

Inductive fit_eqv : fit_result -> fit_result -> Prop :=
| FE_none e : fit_eqv (FitNone e) (FitNone e)
| FE_fit e e' bb bb' cc cc' : feqv e e' -> Forall2 feqv bb bb' -> Forall2 Qeq cc cc' -> fit_eqv (Fitted e bb cc) (Fitted e' bb' cc')
| FE_b : fit_eqv RaiseBroadcast RaiseBroadcast
| FE_t : fit_eqv RaiseTooFewBins RaiseTooFewBins
| FE_i : fit_eqv FitIndexError FitIndexError.

Lemma fit_comp prop n eps tol zw zw' :
  Forall2 feqv (z_unique zw) (z_unique zw') -> Forall2 Qeq (cdf_values zw) (cdf_values zw') ->
  fit_eqv (fit_column prop n eps tol zw) (fit_column prop n eps tol zw').
Proof.
  intros Hz Hc. unfold fit_column.
  destruct Hz as [|b0 b0' bs bs' Hb Hz]; [constructor|].
  destruct Hc as [|c0 c0' cs cs' Hc0 Hc]; [constructor|].
  destruct (_ || _).
  - cbn [length]. rewrite (Forall2_len _ _ _ Hz), (Forall2_len _ _ _ Hc).
    destruct (Nat.eqb _ _); [|constructor].
    assert (F : Forall2 feqv (b0 :: b0 :: bs) (b0' :: b0' :: bs')) by (repeat constructor; auto).
    constructor; auto.
    + apply fscale_comp, minimal_difference_comp; auto.
    + repeat constructor; auto.
  - pose proof (reduce_comp (b0 :: bs) (b0' :: bs') (c0 :: cs) (c0' :: cs') n eps tol
                 (Forall2_cons _ _ Hb Hz) (Forall2_cons _ _ Hc0 Hc)) as R.
    destruct R; constructor; auto. apply fscale_comp, minimal_difference_comp; auto.
Qed.

(** ** Transform *)
Lemma map_opt_ext {A B} (f g : A -> option B) l : (forall x, f x = g x) -> map_opt f l = map_opt g l.
Proof. intro H. induction l; cbn; auto. rewrite H, IHl. reflexivity. Qed.

Lemma map_opt_map_arg {A B C} (f : B -> option C) (h : A -> B) l : map_opt f (map h l) = map_opt (fun x => f (h x)) l.
Proof. induction l; cbn; auto. rewrite IHl. reflexivity. Qed.

Lemma eq_one_comp {A} z z' x (u : list A) e e' : Forall2 feqv z z' -> feqv e e' -> eq_one z x u e = eq_one z' x u e'.
Proof.
  intros Hz He. unfold eq_one.
  rewrite (le_search_comp z z' (fadd x e) (fadd x e')); auto; [|apply fadd_comp; auto; apply feqv_refl].
  destruct (le_search _ _ _) as [i| |]; auto.
  pose proof (F2_pyget _ _ _ i Hz) as P. destruct (pyget z i), (pyget z' i); try contradiction; auto.
  rewrite (check_equal_comp _ _ _ _ _ _ P (feqv_refl x) He). reflexivity.
Qed.

Lemma transform_comp prop f f' xs : fit_eqv f f' -> transform_column prop f xs = transform_column prop f' xs.
Proof.
  destruct 1 as [e|e e' bb bb' cc cc' He Hb Hc| | |]; try reflexivity.
  unfold transform_column. pose proof (F2_tl _ _ _ Hb) as Hz.
  destruct (is_continuous_set prop).
  - unfold ge_multi. rewrite !map_length. destruct (negb _); auto.
    rewrite !map_opt_map_arg.
    rewrite (map_opt_ext _ (fun x => found_index (ge_search (tl bb') (fsub x e') true))); auto.
    intro x. rewrite (ge_search_comp (tl bb) (tl bb') _ (fsub x e')); auto.
    apply fsub_comp; auto. apply feqv_refl.
  - unfold eq_multi. rewrite (Forall2_len _ _ _ Hz).
    destruct (negb _); auto. destruct (negb _); auto.
    erewrite map_opt_ext; [reflexivity|]. intro x. apply eq_one_comp; auto.
Qed.

Lemma fit_same_distribution prop n eps tol zw zw' :
  no_zero_group zw -> no_zero_group zw' ->
  (forall P, weight_where P zw == weight_where P zw') ->
  (forall v, occurs v (map fst zw) <-> occurs v (map fst zw')) ->
  fit_eqv (fit_column prop n eps tol zw) (fit_column prop n eps tol zw').
Proof.
  intros H H' Hw Ho.
  destruct (ecdf_unique zw zw' _ _ _ _ Hw Ho (cdf_law zw H) (cdf_law zw' H')) as [E1 E2].
  apply fit_comp; auto.
  clear -E1. induction E1; constructor; auto. apply feq_feqv; auto.
Qed.

Lemma fit_permutation prop n eps tol zw zw' xs :
  positive_weights zw -> Permutation zw zw' ->
  transform_column prop (fit_column prop n eps tol zw) xs = transform_column prop (fit_column prop n eps tol zw') xs.
Proof.
  intros Hp HP. apply transform_comp. apply fit_same_distribution.
  - apply positive_no_zero; auto.
  - apply positive_no_zero. intros x w Hx. apply (Hp x w). eapply Permutation_in; [apply Permutation_sym; eauto|auto].
  - intro P. apply weight_where_perm; auto.
  - intro v. split; apply perm_occurs; auto. apply Permutation_sym; auto.
Qed.

(** ** Zero weights *)

Lemma weight_where_without_zero P zw : weight_where P (without_zero zw) == weight_where P zw.
Proof.
  induction zw as [|[x w] r IH]; cbn; [reflexivity|].
  destruct (Qeq_bool w 0) eqn:E; cbn.
  - apply Qeq_bool_iff in E. destruct (P x); rewrite IH; [rewrite E; lra|reflexivity].
  - destruct (P x); rewrite IH; reflexivity.
Qed.

Lemma weight_where_nonneg P zw : (forall x w, In (x, w) zw -> 0 <= w) -> 0 <= weight_where P zw.
Proof.
  induction zw as [|[x w] r IH]; intro H; cbn; [lra|].
  pose proof (H x w (or_introl eq_refl)). specialize (IH (fun y v Hy => H y v (or_intror Hy))).
  destruct (P x); lra.
Qed.

Lemma weight_where_pos' P zw x w : (forall x w, In (x, w) zw -> 0 <= w) ->
  In (x, w) zw -> 0 < w -> P x = true -> 0 < weight_where P zw.
Proof.
  induction zw as [|[y v] r IH]; intros H Hin Hw HP; [contradiction|]. cbn.
  pose proof (H y v (or_introl eq_refl)) as H0.
  assert (Hr : forall x w, In (x, w) r -> 0 <= w) by (intros a b Hab; apply (H a b); right; auto).
  destruct Hin as [E|Hin].
  - injection E as -> ->. rewrite HP. pose proof (weight_where_nonneg P r Hr). lra.
  - specialize (IH Hr Hin Hw HP). destruct (P y); lra.
Qed.

Lemma zero_weights_ignored prop n eps tol zw xs :
  (forall x w, In (x, w) zw -> 0 <= w) ->
  (forall x w, In (x, w) zw -> w == 0 -> x <> NaN -> occurs x (map fst (without_zero zw))) ->
  transform_column prop (fit_column prop n eps tol zw) xs =
  transform_column prop (fit_column prop n eps tol (without_zero zw)) xs.
Proof.
  intros Hn Hz.
  assert (Hp : positive_weights (without_zero zw)).
  { intros x w H. unfold without_zero in H. apply filter_In in H. destruct H as [H E]. cbn in E.
    apply negb_true_iff in E. specialize (Hn x w H).
    destruct (Qlt_le_dec 0 w) as [|G]; auto. exfalso.
    assert (W : w == 0) by lra. apply Qeq_bool_iff in W. congruence. }
  assert (Ho : forall v, occurs v (map fst zw) <-> occurs v (map fst (without_zero zw))).
  { intro v. split; intros (x & Hx & E).
    - apply in_map_iff in Hx. destruct Hx as ([y w] & <- & Hx). cbn in E.
      destruct (Qeq_bool w 0) eqn:W.
      + apply Qeq_bool_iff in W. destruct (Hz y w Hx W) as (y' & Hy' & E').
        { apply feq_not_nan in E. tauto. }
        exists y'. split; auto. eapply feq_trans; eauto.
      + exists y. split; auto. apply in_map_iff. exists (y, w). split; auto.
        apply filter_In. split; auto. cbn. rewrite W. auto.
    - exists x. split; auto. apply in_map_iff in Hx. destruct Hx as (p & <- & Hx).
      apply in_map. apply filter_In in Hx. tauto. }
  apply transform_comp. apply fit_same_distribution; auto.
  - intros k Hk Ek. rewrite group_weight_where in Ek.
    assert (O : occurs k (z_unique zw)).
    { exists k. split; auto. apply feq_refl. eapply StrictSorted_no_nan; [apply z_unique_sorted|eauto]. }
    apply z_unique_occurs, Ho in O. destruct O as (y & Hy & E).
    apply in_map_iff in Hy. destruct Hy as ([y' w] & <- & Hy).
    pose proof (Hp _ _ Hy) as Hw. apply filter_In in Hy. destruct Hy as [Hy _].
    pose proof (weight_where_pos' (fun x => feq x k) zw y' w Hn Hy Hw E). lra.
  - apply positive_no_zero; auto.
  - intro P. rewrite weight_where_without_zero. reflexivity.
Qed.
