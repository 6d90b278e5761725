(** Trainings of estimators that look at the rows of each bin: the order of the rows. *)
From Coq Require Import ZArith QArith List Bool Reals Lra Lia Permutation Sorted FunctionalExtensionality.
From Verif.Model Require Import Num LexBins Train Predict Link Estimators WholeFit Quantile LossModes Dispersion BinFit.
From Verif.Spec Require Import DataSpec QuantileSpec BinFitSpec.
From Verif.Proofs Require Import LexFacts PredictFacts Simulation ChainFacts OrderFacts QuantileFacts.
Import ListNotations.
Local Open Scope R_scope.

Lemma sum_perm' {A} (h : A -> R) l l' : Permutation l l' -> sumR (map h l) = sumR (map h l').
Proof. intro P. induction P; cbn; lra. Qed.
Lemma combine_map' {A B} (f : A -> B) l : combine l (map f l) = map (fun x => (x, f x)) l.
Proof. induction l; cbn; f_equal; auto. Qed.

Section Order.
Variable row : Type.
Variable bins : row -> nat -> list fnum.
Variable weight : row -> R.
Variable estimate : nat -> list (row * R) -> R * R.
Variable loss : list (row * R) -> R.
Variable start : row -> R.
Variable gs : list group.
Variable cfg : settings.
Variable rate : nat -> nat -> R.
Variable D D' : list row.
(** Rows that count as the same. *)
Variable alike_rows : list (row * R) -> list (row * R) -> Prop.
Hypothesis rows_in : forall i r, In r (map (fun s => bins s i) D) <-> In r (map (fun s => bins s i) D').
Hypothesis same_bins : forall i (c : list fnum -> bool) (phi : row -> R),
  alike_rows (map (fun s => (s, phi s)) (filter (fun s => c (bins s i)) D)) (map (fun s => (s, phi s)) (filter (fun s => c (bins s i)) D')).
Hypothesis same_all : forall phi : row -> R, alike_rows (map (fun s => (s, phi s)) D) (map (fun s => (s, phi s)) D').
Hypothesis same_weights : forall c : row -> bool, sumR (map (fun s => if c s then weight s else 0) D) = sumR (map (fun s => if c s then weight s else 0) D').
Hypothesis dims : forall r i g, In r D -> nth_error gs i = Some g -> length (bins r i) = g_dim g.
Hypothesis estimate_any : forall it l l', alike_rows l l' -> estimate it l = estimate it l'.
Hypothesis loss_any : forall l l', alike_rows l l' -> loss l = loss l'.

Lemma row_lex f (E : list row) i : f_rows f = map (fun s => bins s i) E ->
  f_lex f = map (fun s => Z.to_nat (if row_valid (f_nbins f) (bins s i) then lex_value (f_nbins f) (bins s i)
                          else if existsb (row_valid (f_nbins f)) (f_rows f) then prodZ (f_nbins f) else 0%Z)) E.
Proof.
  intro R. set (h := fun row => Z.to_nat (if row_valid (f_nbins f) row then lex_value (f_nbins f) row
     else if existsb (row_valid (f_nbins f)) (f_rows f) then prodZ (f_nbins f) else 0%Z)).
  transitivity (map h (f_rows f)).
  - unfold f_lex, lexicographic_binnos. cbn [fst]. rewrite map_map. reflexivity.
  - transitivity (map h (map (fun s => bins s i) E)); [f_equal; exact R|rewrite map_map; reflexivity].
Qed.
Record pair_of (i : nat) (f f' : feature) : Prop := {
  pa_nbins : f_nbins f = f_nbins f';
  pa_lex : exists L : list fnum -> nat, f_lex f = map (fun s => L (bins s i)) D /\ f_lex f' = map (fun s => L (bins s i)) D' }.
Lemma bind_pair i g : nth_error gs i = Some g -> pair_of i (bind_row_group row bins D i g) (bind_row_group row bins D' i g).
Proof.
  intro G. set (f := bind_row_group row bins D i g). set (f' := bind_row_group row bins D' i g).
  assert (N : f_nbins f = f_nbins f').
  { unfold f_nbins, lexicographic_binnos. cbn [snd f_dim f_rows bind_row_group f f']. apply data_n_bins_same; [apply rows_in|].
    intros r I. apply in_map_iff in I. destruct I as (s & <- & I). apply (dims s i g); auto. }
  constructor; auto.
  exists (fun r => Z.to_nat (if row_valid (f_nbins f) r then lex_value (f_nbins f) r
     else if existsb (row_valid (f_nbins f)) (f_rows f) then prodZ (f_nbins f) else 0%Z)). split; [apply (row_lex f D i eq_refl)|].
  rewrite (row_lex f' D' i eq_refl). rewrite <- N. cbn [f_rows bind_row_group f f'].
  rewrite (existsb_same _ _ _ (rows_in i)). auto.
Qed.
Lemma pair_finite i f f' : pair_of i f f' -> f_finite f = f_finite f'.
Proof. intro T. unfold f_finite. rewrite (pa_nbins _ _ _ T). auto. Qed.

Lemma row_bind_nth E : forall hs i j g, nth_error hs j = Some g ->
  nth_error (bind_row_groups row bins E i hs) j = Some (bind_row_group row bins E (i + j) g).
Proof.
  induction hs as [|h hs IH]; intros i [|j] g H; cbn in H; try discriminate; cbn.
  - inversion H; subst. rewrite Nat.add_0_r. auto.
  - rewrite (IH (S i) j g H). f_equal. f_equal. lia.
Qed.

Definition rpb (p q : preds) : Prop := exists phi : row -> R, p_factors p = map phi D /\ p_factors q = map phi D'.
Lemma content_map (L : row -> nat) phi b (E : list row) :
  bin_content row (map L E) (combine E (map phi E)) b = map (fun s => (s, phi s)) (filter (fun s => Nat.eqb (L s) b) E).
Proof.
  unfold bin_content. induction E as [|s E IH]; cbn; auto. destruct (Nat.eqb (L s) b); cbn; rewrite IH; auto.
Qed.
Lemma filter_perm {A} (f : A -> bool) l l' : Permutation l l' -> Permutation (filter f l) (filter f l').
Proof.
  intro P. induction P; cbn; auto.
  - destruct (f x); auto.
  - destruct (f x), (f y); auto. apply perm_swap.
  - eapply Permutation_trans; eauto.
Qed.

Let feats (E : list row) := bind_row_groups row bins E 0 gs.
Lemma estimates_pair j it g p q : nth_error gs j = Some g -> rpb p q ->
  bin_estimates row estimate (feats D) D j it p = bin_estimates row estimate (feats D') D' j it q.
Proof.
  intros G (phi & P & Q). unfold bin_estimates, feats. rewrite !(row_bind_nth _ gs 0 j g G). cbn [Nat.add].
  pose proof (bind_pair j g G) as T. destruct (pa_lex _ _ _ T) as (L & L1 & L2).
  rewrite L1, L2, P, Q, (pair_finite _ _ _ T). apply map_ext. intro b. rewrite !content_map. apply estimate_any.
  apply (same_bins j (fun r => Nat.eqb (L r) b)).
Qed.
Lemma weights_pair (L : row -> nat) n : bincounts (map L D) (map weight D) n = bincounts (map L D') (map weight D') n.
Proof. unfold bincounts. apply map_ext. intro k. rewrite !bin_total_map. apply (same_weights (fun s => Nat.eqb (L s) k)). Qed.

Let calc (E : list row) := fun (i it : nat) p => map fst (bin_estimates row estimate (feats E) E i it p).
Let smth (E : list row) := fun (i it : nat) p => bin_smoothing row weight estimate gs (feats E) E i it p.
Let calb := fun (_ : nat) (f : list R) => f.

Lemma new_pair j g s t it p q : nth_error gs j = Some g -> RS rf j s t -> rpb p q ->
  new_factors (calc D) (smth D) calb rate j (bind_row_group row bins D j g) s it p =
  new_factors (calc D') (smth D') calb rate j (bind_row_group row bins D' j g) t it q.
Proof.
  intros G Sr P. unfold new_factors. pose proof (bind_pair j g G) as T. destruct (pa_lex _ _ _ T) as (L & L1 & L2).
  pose proof (estimates_pair j it g p q G P) as E.
  unfold calc. rewrite <- E. cbv zeta. rewrite <- (pair_finite _ _ _ T), <- (rs_zero _ _ _ _ Sr). cbn [f_mnl bind_row_group].
  assert (X : smth D j it p = smth D' j it q).
  { unfold smth, bin_smoothing. rewrite G. unfold feats. rewrite !(row_bind_nth _ gs 0 j g G). cbn [Nat.add]. fold (feats D) (feats D').
    rewrite <- E, (pa_nbins _ _ _ T), L1, L2, <- (pair_finite _ _ _ T), weights_pair. auto. }
  rewrite X. auto.
Qed.
Lemma gather_row v (L : row -> nat) (E : list row) : gather v (map L E) = map (fun s => nth (L s) v 0) E.
Proof. unfold gather. rewrite map_map. auto. Qed.
Lemma map2_row (f : R -> R -> R) (a b : row -> R) E : map2 f (map a E) (map b E) = map (fun s => f (a s) (b s)) E.
Proof. induction E; cbn; f_equal; auto. Qed.

Lemma rgl_pair : forall hs i, (forall j, nth_error hs j = nth_error gs (i + j)) ->
  RGL (calc D) (calc D') (smth D) (smth D') calb calb rate rate rpb rf i (bind_row_groups row bins D i hs) (bind_row_groups row bins D' i hs).
Proof.
  induction hs as [|g hs IH]; intros i H; cbn [bind_row_groups]; constructor.
  - assert (G : nth_error gs i = Some g) by (pose proof (H 0%nat) as X; rewrite Nat.add_0_r in X; rewrite <- X; auto).
    pose proof (bind_pair i g G) as T. destruct (pa_lex _ _ _ T) as (L & L1 & L2).
    constructor; try reflexivity.
    + unfold rf. rewrite (pair_finite _ _ _ T). auto.
    + intros p q v u (phi & P & Q) <-. exists (fun s => phi s + nth (L (bins s i)) v 0).
      change (f_ext _) with false; cbn [add_preds p_factors]. rewrite P, Q, L1, L2, !gather_row. unfold vadd. rewrite !map2_row. auto.
    + intros p q v u (phi & P & Q) <-. exists (fun s => phi s - nth (L (bins s i)) v 0).
      change (f_ext _) with false; cbn [sub_preds p_factors]. rewrite P, Q, L1, L2, !gather_row. unfold vsub. rewrite !map2_row. auto.
    + intros s t it p q Sr P. unfold rf. rewrite (new_pair i g s t it p q G Sr P). auto.
  - apply IH. intro j. pose proof (H (S j)) as X. cbn in X. rewrite X. f_equal. lia.
Qed.

Lemma train_pair fuel : ROO rpb rf (bin_train row bins weight estimate loss start gs cfg rate fuel D)
                                   (bin_train row bins weight estimate loss start gs cfg rate fuel D').
Proof.
  unfold bin_train. cbv zeta. apply sim_fit; try (unfold rf; intros; subst; auto; fail).
  - apply (rgl_pair gs 0). intro. auto.
  - intros p q (phi & P & Q). rewrite P, Q, !combine_map'. apply loss_any, same_all.
  - unfold rf. intros _ i f g a b u v E1 E2 -> ->. unfold clip_absolute, factor_limits. rewrite E1, E2. auto.
  - exists start. auto.
Qed.
Lemma stores_pair : forall hs i, (forall j, nth_error hs j = nth_error gs (i + j)) -> forall sl tl, RSL rf i sl tl ->
  map2 store (bind_row_groups row bins D i hs) sl = map2 store (bind_row_groups row bins D' i hs) tl.
Proof.
  induction hs as [|g hs IH]; intros i H sl tl R; cbn [bind_row_groups map2]; auto. inversion R; subst; auto.
  f_equal.
  - assert (G : nth_error gs i = Some g) by (pose proof (H 0%nat) as X; rewrite Nat.add_0_r in X; rewrite <- X; auto).
    pose proof (bind_pair i g G) as T.
    assert (A : s_agg s = s_agg t). { pose proof (rs_agg _ _ _ _ H0) as A. unfold RA, rf in A. destruct (s_agg s), (s_agg t); try contradiction; congruence. }
    unfold store. rewrite A, (pair_finite _ _ _ T), (pa_nbins _ _ _ T). auto.
  - apply IH; auto. intro j. pose proof (H (S j)) as X. cbn in X. rewrite X. f_equal. lia.
Qed.
Lemma fit_alike scale offset fuel : bin_fit row bins weight estimate loss start gs cfg rate scale offset fuel D =
                                   bin_fit row bins weight estimate loss start gs cfg rate scale offset fuel D'.
Proof.
  unfold bin_fit. pose proof (train_pair fuel) as R.
  destruct (bin_train _ _ _ _ _ _ _ _ _ _ D) as [[a|e]|], (bin_train _ _ _ _ _ _ _ _ _ _ D') as [[b|e']|]; cbn in R; try contradiction; auto.
  - rewrite (stores_pair gs 0 (fun _ => eq_refl) _ _ (rt_feats _ _ _ _ R)), (rt_iter _ _ _ _ R), (rt_loss _ _ _ _ R). auto.
  - congruence.
Qed.
End Order.
Lemma fit_pair row bins weight estimate loss start gs cfg rate (D D' : list row) : Permutation D D' ->
  (forall r i g, In r D -> nth_error gs i = Some g -> length (bins r i) = g_dim g) ->
  (forall it l l', Permutation l l' -> estimate it l = estimate it l') ->
  (forall l l', Permutation l l' -> loss l = loss l') -> forall scale offset fuel,
  bin_fit row bins weight estimate loss start gs cfg rate scale offset fuel D =
  bin_fit row bins weight estimate loss start gs cfg rate scale offset fuel D'.
Proof.
  intros P A B C scale offset fuel. apply fit_alike with (alike_rows := @Permutation (row * R)); auto.
  - intros i r. rewrite !in_map_iff. split; intros (s & <- & I); exists s; split; auto.
    + eapply Permutation_in; eauto.
    + eapply Permutation_in; [apply Permutation_sym|]; eauto.
  - intros i c phi. apply Permutation_map, filter_perm, P.
  - intro phi. apply Permutation_map, P.
  - intro c. apply sum_perm', P.
Qed.

(** ** Quantiles do not depend on the order. *)
Lemma sorted_unique : forall l l' : list R, Permutation l l' -> StronglySorted Rle l -> StronglySorted Rle l' -> l = l'.
Proof.
  induction l as [|x l IH]; intros l' P A B.
  - apply Permutation_nil in P. auto.
  - destruct l' as [|y l']; [apply Permutation_sym, Permutation_nil in P; discriminate|].
    inversion A as [|? ? A1 A2]; subst. inversion B as [|? ? B1 B2]; subst.
    assert (x = y).
    { assert (In x (y :: l')) by (eapply Permutation_in; [exact P|left; auto]).
      assert (In y (x :: l)) by (eapply Permutation_in; [apply Permutation_sym; exact P|left; auto]).
      rewrite Forall_forall in A2, B2. destruct H as [->|H]; auto. destruct H0 as [->|H0]; auto.
      pose proof (A2 _ H0). pose proof (B2 _ H). lra. }
    subst. f_equal. apply IH; auto. eapply Permutation_cons_inv; eauto.
Qed.
Lemma sorted_targets s : StronglySorted (fun a b : qrow => fst a <= fst b) s -> StronglySorted Rle (map fst s).
Proof.
  intro H. induction H; cbn; constructor; auto. rewrite Forall_forall in *. intros v I. apply in_map_iff in I. destruct I as (r & <- & I). auto.
Qed.
Lemma continuous_any sort q rows rows' : sorts sort -> weighted_rows rows -> 0 < q <= 1 -> Permutation rows rows' ->
  continuous_quantile sort rows q = continuous_quantile sort rows' q.
Proof.
  intros SO W Hq P. destruct (SO rows) as [P1 S1]. destruct (SO rows') as [P2 S2].
  assert (PS : Permutation (sort rows) (sort rows')) by (eapply Permutation_trans; [exact P1|eapply Permutation_trans; [exact P|apply Permutation_sym; exact P2]]).
  assert (E : map fst (sort rows) = map fst (sort rows')) by (apply sorted_unique; [apply Permutation_map; exact PS|apply sorted_targets..]; auto).
  assert (W1 : weighted_rows (sort rows)).
  { destruct W as [A B]. split; [intros r I; apply A; eapply Permutation_in; eauto|]. rewrite (total_perm _ _ P1). exact B. }
  assert (W2 : weighted_rows (sort rows')).
  { destruct W1 as [A B]. split; [intros r I; apply A; eapply Permutation_in; [apply Permutation_sym; exact PS|exact I]|]. rewrite <- (total_perm _ _ PS). exact B. }
  unfold continuous_quantile. cbv zeta. change (sumR (map snd rows)) with (total_weight rows). change (sumR (map snd rows')) with (total_weight rows').
  rewrite <- (total_perm _ _ P). rewrite <- E.
  assert (T1 : total_weight rows = total_weight (sort rows)) by (symmetry; apply total_perm; exact P1).
  assert (T2 : total_weight rows = total_weight (sort rows')) by (rewrite (total_perm _ _ P); symmetry; apply total_perm; exact P2).
  assert (NE : forall s, weighted_rows s -> s <> []) by (intros s [_ B] ->; cbn in B; lra).
  assert (K : total_weight rows * q <= total_weight rows) by (destruct W as [_ B]; nra).
  destruct (reaching_some (total_weight rows * q) (sort rows) 0 (NE _ W1)) as (v & l & V); [lra|].
  destruct (reaching_some (total_weight rows * q) (sort rows') 0 (NE _ W2)) as (v' & l' & V'); [lra|].
  rewrite V, V'.
  assert (Q1 : is_quantile q (sort rows) v) by (apply (reaching_quantile _ _ _ l); auto; [lra|]; rewrite <- T1; rewrite Rmult_comm in V; rewrite Rmult_comm; first [exact V|rewrite Rmult_comm; exact V]).
  assert (Q2 : is_quantile q (sort rows') v') by (apply (reaching_quantile _ _ _ l'); auto; [lra|]; rewrite <- T2; rewrite Rmult_comm in V'; rewrite Rmult_comm; first [exact V'|rewrite Rmult_comm; exact V']).
  assert (v = v').
  { apply (quantile_perm _ _ _ _ PS) in Q1. apply Rle_antisym; eapply (quantile_monotone (sort rows') q q); eauto; lra. }
  subst v'. auto.
Qed.
