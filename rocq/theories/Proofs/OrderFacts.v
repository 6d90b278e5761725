(** Trainings on data sets with the same sums and the same rows agree. *)
From Coq Require Import ZArith QArith Qround List Bool Reals Lra Lia Permutation.
From Verif.Model Require Import Num LexBins Train Predict Link Estimators Gbs WholeFit.
From Verif.Spec Require Import DataSpec.
From Verif.Proofs Require Import LinkFacts NumFacts FnumOrder LexFacts PredictFacts Simulation ChainFacts.
Import ListNotations.
Local Open Scope R_scope.

(** ** Numbers of bins depend only on which rows occur. *)
Lemma col_max_nth a : forall b c x, length a = length b -> nth_error (col_max a b) c = Some x ->
  nth_error a c = Some x \/ nth_error b c = Some x.
Proof.
  induction a as [|y a IH]; intros [|z b] c x L H; cbn in L; try discriminate; destruct c; cbn in H; try discriminate.
  - destruct (fle y z); inversion H; subst; cbn; auto.
  - cbn. apply IH; auto.
Qed.

Lemma fold_col_max_nth M rs : forall r c x, length r = M -> (forall s, In s rs -> length s = M) ->
  nth_error (fold_left col_max rs r) c = Some x -> exists s, In s (r :: rs) /\ nth_error s c = Some x.
Proof.
  induction rs as [|s rs IH]; intros r c x L H E; cbn [fold_left] in E.
  - exists r. split; auto. left; auto.
  - pose proof (H s (or_introl eq_refl)) as Ls.
    destruct (IH (col_max r s) c x) as (t & T & Et).
    + rewrite col_max_length; lia.
    + intros; apply H; right; auto.
    + exact E.
    + destruct T as [<-|T].
      * apply col_max_nth in Et; [|lia]. destruct Et as [Et|Et]; [exists r|exists s]; split; auto; [left|right; left]; auto.
      * exists t. split; auto. right; right; auto.
Qed.

Lemma dominates_nth a b : Forall2 dominates a b -> forall c x, nth_error b c = Some x ->
  exists m, nth_error a c = Some m /\ dominates m x.
Proof.
  intro H. induction H as [|m x a b D _ IH]; intros [|c] z E; cbn in E; try discriminate.
  - inversion E; subst. exists m. auto.
  - apply IH; auto.
Qed.
Lemma dominates_nth' a b : Forall2 dominates a b -> forall c m, nth_error a c = Some m ->
  exists x, nth_error b c = Some x /\ dominates m x.
Proof.
  intro H. induction H as [|m x a b D _ IH]; intros [|c] z E; cbn in E; try discriminate.
  - inversion E; subst. exists x. auto.
  - apply IH; auto.
Qed.

Lemma maxima M r rs : (forall s, In s (r :: rs) -> Forall (fun x => isfinite x = true) s /\ length s = M) ->
  (forall s, In s (r :: rs) -> Forall2 dominates (fold_left col_max rs r) s) /\
  (forall c x, nth_error (fold_left col_max rs r) c = Some x -> exists s, In s (r :: rs) /\ nth_error s c = Some x) /\
  length (fold_left col_max rs r) = M.
Proof.
  intro H. destruct (H r (or_introl eq_refl)) as [Fr Lr].
  destruct (fold_col_max M rs r Fr Lr) as [D1 D2]; [intros; apply H; right; auto|].
  split; [|split].
  - intros s [<-|I]; auto.
  - intros c x E. apply (fold_col_max_nth M); auto. intros; apply H; right; auto.
  - clear -D1 Lr. rewrite <- Lr. clear Lr. induction D1; cbn; auto.
Qed.

Lemma data_n_bins_same M rows rows' : (forall r, In r rows <-> In r rows') -> (forall r, In r rows -> length r = M) ->
  data_n_bins M rows = data_n_bins M rows'.
Proof.
  intros E L. unfold data_n_bins.
  assert (E' : forall r, In r (filter row_finite_semi_positive rows) <-> In r (filter row_finite_semi_positive rows')).
  { intro r. rewrite !filter_In, E. tauto. }
  assert (A : forall r, In r (filter row_finite_semi_positive rows) -> Forall (fun x => isfinite x = true) r /\ length r = M).
  { intros r H. apply filter_In in H. destruct H as [I H]. split; auto.
    unfold row_finite_semi_positive in H. apply andb_prop in H. destruct H as [H _].
    apply Forall_forall. intros x Hx. rewrite forallb_forall in H. auto. }
  destruct (filter row_finite_semi_positive rows) as [|r rs], (filter row_finite_semi_positive rows') as [|r' rs']; auto.
  - exfalso. apply (proj2 (E' r')). left; auto.
  - exfalso. apply (proj1 (E' r)). left; auto.
  - assert (A' : forall s, In s (r' :: rs') -> Forall (fun x => isfinite x = true) s /\ length s = M).
    { intros s I. apply A, E', I. }
    destruct (maxima M r rs A) as (B1 & B2 & B3). destruct (maxima M r' rs' A') as (C1 & C2 & C3).
    set (m := fold_left col_max rs r) in *. set (m' := fold_left col_max rs' r') in *. clearbody m m'.
    assert (K : Forall2 (fun x y => floor_of x = floor_of y) m m').
    { assert (N : forall c x y, nth_error m c = Some x -> nth_error m' c = Some y -> floor_of x = floor_of y).
      { intros c x y Hx Hy. destruct (B2 c x Hx) as (s & Is & Es). destruct (C2 c y Hy) as (t & It & Et).
        destruct (dominates_nth m' s (C1 s (proj1 (E' s) Is)) c x Es) as (y' & Hy' & [Fy D1]).
        rewrite Hy in Hy'. inversion Hy'; subst y'.
        destruct (dominates_nth m t (B1 t (proj2 (E' t) It)) c y Et) as (x' & Hx' & [Fx D2]).
        rewrite Hx in Hx'. inversion Hx'; subst x'.
        destruct x as [x| | |]; try discriminate. destruct y as [y| | |]; try discriminate.
        apply fle_Fin in D1. apply fle_Fin in D2. cbn. apply Z.le_antisymm; apply Qfloor_resp_le; auto. }
      clear -N B3 C3. assert (L : length m = length m') by congruence. clear B3 C3. revert m' L N.
      induction m as [|x m IH]; intros [|y m'] L N; cbn in L; try discriminate; constructor.
      - apply (N 0%nat); auto.
      - apply IH; [lia|]. intros c. apply (N (S c)). }
    clear -K. induction K; cbn; auto. f_equal; auto. lia.
Qed.

(** ** Sums over rows. *)
Lemma bin_total_map {W} (L : W -> nat) (g : W -> R) k rs :
  bin_total (map L rs) (map g rs) k = sumR (map (fun s => if Nat.eqb (L s) k then g s else 0) rs).
Proof. induction rs as [|s rs IH]; cbn; auto. rewrite IH. auto. Qed.

Lemma finite_values_sum {W} (p : W -> option R) (w : W -> R) rs :
  sumR (finite_weights (map p rs) (map w rs)) = sumR (map (fun s => w s * match p s with Some _ => 1 | None => 0 end) rs) /\
  sumR (map2 Rmult (finite_values (map p rs) (map w rs)) (finite_weights (map p rs) (map w rs))) =
    sumR (map (fun s => w s * match p s with Some v => v | None => 0 end) rs).
Proof.
  induction rs as [|s rs [I1 I2]]; cbn; auto. destruct (p s); cbn; rewrite I1, I2; split; lra.
Qed.

Definition blind {B} (h : sample -> B) : Prop := forall s v, h (with_weight s v) = h s.

Lemma bind_nth : forall hs i j g, nth_error hs j = Some g -> forall E, nth_error (bind_groups E i hs) j = Some (bind_group E (i + j) g).
Proof.
  induction hs as [|h hs IH]; intros i [|j] g H E; cbn in H; try discriminate; cbn.
  - inversion H; subst. rewrite Nat.add_0_r. auto.
  - rewrite (IH (S i) j g H E). f_equal. f_equal. lia.
Qed.

Lemma gather_map v (L : sample -> nat) (E : list sample) : gather v (map L E) = map (fun s => nth (L s) v 0) E.
Proof. unfold gather. rewrite map_map. auto. Qed.

Section Same.
Variable D D' : list sample.
Hypothesis Hin : forall i r, In r (map (fun s => x_bins s i) D) <-> In r (map (fun s => x_bins s i) D').
(** Sums that are linear in the weight agree. *)
Hypothesis Hm : forall h : sample -> R, blind h -> sumR (map (fun s => x_w s * h s) D) = sumR (map (fun s => x_w s * h s) D').
(** All sums agree in which rows without weight do not count. *)
Definition vanishing (h : sample -> R) : Prop := forall s, x_w s = 0 -> h s = 0.
Definition all_sums : Prop := forall h : sample -> R, vanishing h -> sumR (map h D) = sumR (map h D').

Definition same_sum (h : sample -> R) : Prop := sumR (map h D) = sumR (map h D').

Lemma lin_sum g h : blind h -> (forall s, g s = x_w s * h s) -> same_sum g.
Proof. intros B E. unfold same_sum. rewrite !(map_ext _ _ E). apply Hm, B. Qed.

Lemma lin_bin (L : sample -> nat) g h k : blind L -> blind h -> (forall s, g s = x_w s * h s) ->
  bin_total (map L D) (map g D) k = bin_total (map L D') (map g D') k.
Proof.
  intros BL Bh E. rewrite !bin_total_map. apply (lin_sum _ (fun s => if Nat.eqb (L s) k then h s else 0)).
  - intros s v. rewrite BL, Bh. auto.
  - intro s. rewrite E. destruct (Nat.eqb _ _); lra.
Qed.
Lemma lin_bins (L : sample -> nat) g h n : blind L -> blind h -> (forall s, g s = x_w s * h s) ->
  bincounts (map L D) (map g D) n = bincounts (map L D') (map g D') n.
Proof. intros. unfold bincounts. apply map_ext. intro k. eapply lin_bin; eauto. Qed.

Lemma all_bin (L : sample -> nat) g k : all_sums -> vanishing g -> bin_total (map L D) (map g D) k = bin_total (map L D') (map g D') k.
Proof. intros A V. rewrite !bin_total_map. apply A. intros s Z. rewrite (V s Z). destruct (Nat.eqb _ _); reflexivity. Qed.
Ltac vanishes := let s := fresh in let Z := fresh in intros s Z; cbv beta; rewrite ?Z; unfold Rdiv; ring.

(** *** Binned data. *)
Variable gs : list group.
Hypothesis dims : forall s i g, In s D -> nth_error gs i = Some g -> length (x_bins s i) = g_dim g.

Lemma f_lex_map f (E : list sample) i : f_rows f = map (fun s => x_bins s i) E ->
  f_lex f = map (fun s => Z.to_nat (if row_valid (f_nbins f) (x_bins s i) then lex_value (f_nbins f) (x_bins s i)
                          else if existsb (row_valid (f_nbins f)) (f_rows f) then prodZ (f_nbins f) else 0%Z)) E.
Proof.
  intro R. set (h := fun row => Z.to_nat (if row_valid (f_nbins f) row then lex_value (f_nbins f) row
     else if existsb (row_valid (f_nbins f)) (f_rows f) then prodZ (f_nbins f) else 0%Z)).
  transitivity (map h (f_rows f)).
  - unfold f_lex, lexicographic_binnos. cbn [fst]. rewrite map_map. reflexivity.
  - transitivity (map h (map (fun s => x_bins s i) E)); [f_equal; exact R|rewrite map_map; reflexivity].
Qed.

Lemma existsb_same {A} (f : A -> bool) l l' : (forall x, In x l <-> In x l') -> existsb f l = existsb f l'.
Proof.
  intro E. destruct (existsb f l) eqn:A1, (existsb f l') eqn:A2; auto; exfalso.
  - apply existsb_exists in A1. destruct A1 as (x & I & H).
    assert (X : existsb f l' = true) by (apply existsb_exists; exists x; split; [apply E|]; auto). congruence.
  - apply existsb_exists in A2. destruct A2 as (x & I & H).
    assert (X : existsb f l = true) by (apply existsb_exists; exists x; split; [apply E|]; auto). congruence.
Qed.

(** The two bound groups: same shape, and bin numbers given by one function. *)
Record twin (i : nat) (f f' : feature) : Prop := {
  tw_dim : f_dim f = f_dim f';
  tw_hier : f_hier f = f_hier f';
  tw_mnl : f_mnl f = f_mnl f';
  tw_ext : f_ext f = false /\ f_ext f' = false;
  tw_nbins : f_nbins f = f_nbins f';
  tw_lex : exists L : list fnum -> nat, f_lex f = map (fun s => L (x_bins s i)) D /\ f_lex f' = map (fun s => L (x_bins s i)) D' }.

Lemma bind_twin i g : nth_error gs i = Some g -> twin i (bind_group D i g) (bind_group D' i g).
Proof.
  intro G.
  assert (N : f_nbins (bind_group D i g) = f_nbins (bind_group D' i g)).
  { unfold f_nbins, lexicographic_binnos. cbn [snd f_dim f_rows bind_group]. apply data_n_bins_same; auto.
    intros r I. apply in_map_iff in I. destruct I as (s & <- & I). apply (dims s i g); auto. }
  constructor; auto.
  eexists (fun row => Z.to_nat (if row_valid (f_nbins (bind_group D i g)) row then lex_value (f_nbins (bind_group D i g)) row
     else if existsb (row_valid (f_nbins (bind_group D i g))) (map (fun s => x_bins s i) D) then prodZ (f_nbins (bind_group D i g)) else 0%Z)).
  split.
  - rewrite (f_lex_map (bind_group D i g) D i eq_refl). auto.
  - rewrite (f_lex_map (bind_group D' i g) D' i eq_refl). rewrite <- N. cbn [f_rows bind_group].
    rewrite (existsb_same _ _ _ (Hin i)). auto.
Qed.

Lemma twin_finite i f f' : twin i f f' -> f_finite f = f_finite f'.
Proof. intro T. unfold f_finite. rewrite (tw_nbins _ _ _ T). auto. Qed.

(** *** Estimates. *)
Variable gm : R -> R.
Variable bppf : R -> R -> R -> R.
Variable erfinv : R -> R.

Lemma nbinom_same a c (L : sample -> nat) n phi : blind L -> blind phi ->
  nbinom_parameters gm a c (map L D) n (map x_y D) (map x_w D) (map phi D) =
  nbinom_parameters gm a c (map L D') n (map x_y D') (map x_w D') (map phi D').
Proof.
  intros BL Bp. unfold nbinom_parameters. cbv zeta. rewrite ?map_map, ?map2_rows.
  f_equal.
  - apply (lin_bins _ _ (fun s => x_y s / (a + c * unlink_func Log (phi s)))); auto.
    + intros s v. rewrite Bp. auto.
    + intro s. unfold Rdiv. ring.
  - apply (lin_bins _ _ (fun s => unlink_func Log (phi s) / (a + c * unlink_func Log (phi s)))); auto.
    + intros s v. rewrite Bp. auto.
    + intro s. unfold Rdiv. ring.
Qed.

Lemma poisson_same (L : sample -> nat) n phi : blind L -> blind phi ->
  poisson_parameters gm (poisson_precalc (map L D) n (map x_y D) (map x_w D)) (map L D) n (map x_w D) (map phi D) =
  poisson_parameters gm (poisson_precalc (map L D') n (map x_y D') (map x_w D')) (map L D') n (map x_w D') (map phi D').
Proof.
  intros BL Bp. unfold poisson_parameters, poisson_precalc. cbv zeta. rewrite ?map_map, ?map2_rows.
  f_equal.
  - apply (lin_bins _ _ (fun s => x_y s)); auto; [intros s v; auto|intro; ring].
  - apply (lin_bins _ _ (fun s => unlink_func Log (phi s))); auto. intros s v. rewrite Bp. auto.
Qed.

Lemma classifier_same (L : sample -> nat) n phi : blind L -> blind phi ->
  classifier_parameters bppf erfinv (map L D) n (map x_y D) (map x_w D) (map phi D) =
  classifier_parameters bppf erfinv (map L D') n (map x_y D') (map x_w D') (map phi D').
Proof.
  intros BL Bp. unfold classifier_parameters, classifier_weights. cbv zeta. rewrite ?map_map, ?map2_rows.
  f_equal.
  - apply (lin_bins _ _ (fun s => boost_weight (x_y s) (unlink_func Logit (phi s)) * x_y s)); auto.
    + intros s v. rewrite Bp. auto.
    + intro; ring.
  - apply (lin_bins _ _ (fun s => boost_weight (x_y s) (unlink_func Logit (phi s)) * (1 - x_y s))); auto.
    + intros s v. rewrite Bp. auto.
    + intro; ring.
Qed.

Lemma weighted_mean_same : weighted_mean (map x_y D) (map x_w D) = weighted_mean (map x_y D') (map x_w D').
Proof.
  unfold weighted_mean. rewrite ?map2_rows.
  assert (E1 : sumR (map x_w D) = sumR (map x_w D')) by (apply (lin_sum _ (fun _ => 1)); [intros s v; auto|intro; ring]).
  assert (E2 : sumR (map (fun s => x_y s * x_w s) D) = sumR (map (fun s => x_y s * x_w s) D'))
    by (apply (lin_sum _ x_y); [intros s v; auto|intro; ring]).
  rewrite E1, E2. auto.
Qed.

Lemma in_bin_same i (L : list fnum -> nat) k :
  in_bin (map (fun s => L (x_bins s i)) D) k = in_bin (map (fun s => L (x_bins s i)) D') k.
Proof.
  unfold in_bin. apply existsb_same. intro b.
  rewrite !in_map_iff. split; intros (s & <- & I).
  - assert (J : In (x_bins s i) (map (fun s => x_bins s i) D')) by (apply Hin; apply in_map_iff; eauto).
    apply in_map_iff in J. destruct J as (t & Et & It). exists t. rewrite Et. auto.
  - assert (J : In (x_bins s i) (map (fun s => x_bins s i) D)) by (apply Hin; apply in_map_iff; eauto).
    apply in_map_iff in J. destruct J as (t & Et & It). exists t. rewrite Et. auto.
Qed.

Lemma location_same i (L : list fnum -> nat) n phi : all_sums ->
  location_parameters (map (fun s => L (x_bins s i)) D) n (map x_y D) (map x_w D) (map phi D) =
  location_parameters (map (fun s => L (x_bins s i)) D') n (map x_y D') (map x_w D') (map phi D').
Proof.
  intro A. unfold location_parameters. cbv zeta.
  assert (V : precalc_variance_y (map (fun s => L (x_bins s i)) D) n (map x_y D) (map x_w D) =
              precalc_variance_y (map (fun s => L (x_bins s i)) D') n (map x_y D') (map x_w D')).
  { unfold precalc_variance_y. apply map_ext. intro k.
    assert (P : variance_prior (map x_y D) (map x_w D) = variance_prior (map x_y D') (map x_w D')).
    { unfold variance_prior. rewrite <- weighted_mean_same. destruct (weighted_mean _ _) as [m|]; auto.
      rewrite ?map2_rows. cbv zeta. rewrite (A (fun s => (x_y s - m) * (x_y s - m) * x_w s)), (A x_w) by vanishes. auto. }
    rewrite <- P. destruct (variance_prior _ _); auto.
    assert (Sq : squared_residuals (map (fun s => L (x_bins s i)) D) (map x_y D) (map x_w D) k =
                 squared_residuals (map (fun s => L (x_bins s i)) D') (map x_y D') (map x_w D') k).
    { unfold squared_residuals. rewrite <- in_bin_same. rewrite ?map2_rows.
      rewrite <- !(all_bin _ _ k A) by vanishes. auto. }
    rewrite <- Sq. destruct (squared_residuals _ _ _ _); auto. rewrite <- (all_bin _ _ k A) by vanishes. auto. }
  rewrite <- V. f_equal. unfold calc_factors_generic. apply map_ext. intro k. rewrite ?map2_rows.
  rewrite <- !(all_bin _ _ k A) by vanishes. auto.
Qed.

Lemma locpoisson_same (L : sample -> nat) n phi : all_sums ->
  locpoisson_parameters (map L D) n (map x_y D) (map x_w D) (map phi D) =
  locpoisson_parameters (map L D') n (map x_y D') (map x_w D') (map phi D').
Proof.
  intro A. unfold locpoisson_parameters. cbv zeta. apply map_ext. intro k.
  assert (E : weighted_stddev (map x_y D) (map x_w D) = weighted_stddev (map x_y D') (map x_w D')).
  { unfold weighted_stddev. rewrite <- weighted_mean_same. destruct (weighted_mean _ _) as [m|]; auto.
    rewrite ?map2_rows. rewrite (A (fun s => x_w s * (x_y s - m) ^ 2)), (A x_w) by vanishes. auto. }
  rewrite <- E. destruct (weighted_stddev _ _); auto. rewrite ?map_map, ?map2_rows.
  rewrite <- !(all_bin _ _ k A) by vanishes. auto.
Qed.

Lemma gbs_same al (L : sample -> nat) n phi : all_sums ->
  gbs_parameters al (map L D) n (map x_y D) (map x_w D) (map phi D) =
  gbs_parameters al (map L D') n (map x_y D') (map x_w D') (map phi D').
Proof.
  intro A. unfold gbs_parameters. cbv zeta. apply map_ext. intro k. rewrite ?map_map, ?map2_rows.
  rewrite <- !(all_bin _ _ k A) by vanishes. auto.
Qed.

Variable k : kind.
Hypothesis enough : linear_kind k = true \/ all_sums.

Lemma estimates_same i (L : list fnum -> nat) n phi : blind phi ->
  estimates gm bppf erfinv k (map (fun s => L (x_bins s i)) D) n (map x_y D) (map x_w D) (map phi D) =
  estimates gm bppf erfinv k (map (fun s => L (x_bins s i)) D') n (map x_y D') (map x_w D') (map phi D').
Proof.
  intro Bp. assert (BL : blind (fun s => L (x_bins s i))) by (intros s v; auto).
  destruct k; cbn [estimates].
  - cbv zeta. rewrite (nbinom_same a c _ n phi BL Bp). auto.
  - cbv zeta. rewrite (poisson_same _ n phi BL Bp). auto.
  - apply classifier_same; auto.
  - apply location_same. destruct enough; [discriminate|auto].
  - apply locpoisson_same. destruct enough; [discriminate|auto].
  - apply gbs_same. destruct enough; [discriminate|auto].
Qed.

Lemma scale_same : kind_scale k (map x_y D) (map x_w D) = kind_scale k (map x_y D') (map x_w D').
Proof.
  clear enough.
  assert (E : forall l, global_scale l (map x_y D) (map x_w D) = global_scale l (map x_y D') (map x_w D'))
    by (intro l; unfold global_scale; rewrite weighted_mean_same; auto).
  destruct k; cbn [kind_scale kind_link]; auto. apply weighted_mean_same.
Qed.

Lemma offset_same l scale : prior_offset l scale (map x_prior D) (map x_w D) = prior_offset l scale (map x_prior D') (map x_w D').
Proof.
  clear enough.
  unfold prior_offset. assert (E : weighted_mean (finite_values (map x_prior D) (map x_w D)) (finite_weights (map x_prior D) (map x_w D)) =
     weighted_mean (finite_values (map x_prior D') (map x_w D')) (finite_weights (map x_prior D') (map x_w D'))).
  { unfold weighted_mean. destruct (finite_values_sum x_prior x_w D) as [-> ->]. destruct (finite_values_sum x_prior x_w D') as [-> ->].
    rewrite (lin_sum _ (fun s => match x_prior s with Some _ => 1 | None => 0 end) (fun s v => eq_refl) (fun s => eq_refl)).
    rewrite (lin_sum _ (fun s => match x_prior s with Some v => v | None => 0 end) (fun s v => eq_refl) (fun s => eq_refl)). auto. }
  rewrite E. auto.
Qed.
Lemma offset_kind_same scale : kind_offset k scale (map x_prior D) (map x_w D) = kind_offset k scale (map x_prior D') (map x_w D').
Proof. clear enough. unfold kind_offset. destruct k; auto; apply offset_same. Qed.

Variable bad : R.
Lemma loss_same phi : blind phi ->
  kind_loss bad k (map x_y D) (map x_w D) (map phi D) = kind_loss bad k (map x_y D') (map x_w D') (map phi D').
Proof.
  clear enough.
  intro Bp.
  assert (W : sumR (map x_w D) = sumR (map x_w D')) by (apply (lin_sum _ (fun _ => 1)); [intros s v; auto|intro; ring]).
  assert (E : forall l, squared_loss (map (unlink_func l) (map phi D)) (map x_y D) (map x_w D) =
     squared_loss (map (unlink_func l) (map phi D')) (map x_y D') (map x_w D')).
  { intro l. unfold squared_loss. rewrite W. f_equal. rewrite !map_map, !map2_rows.
    apply (lin_sum _ (fun s => (unlink_func l (phi s) - x_y s) * (unlink_func l (phi s) - x_y s))).
    - intros s v. rewrite Bp. auto.
    - intro; ring. }
  destruct k; cbn [kind_loss kind_link]; auto. cbv zeta. unfold gbs_loss. rewrite !map_map, !map2_rows.
  rewrite (lin_sum (fun s => (if Reqb (x_y s) 0 then 0 else 1) * x_w s) (fun s => if Reqb (x_y s) 0 then 0 else 1) (fun s v => eq_refl)) by (intro; ring).
  rewrite (lin_sum (fun s => x_w s * (unlink_func Identity (phi s) - x_y s) ^ 2) (fun s => (unlink_func Identity (phi s) - x_y s) ^ 2)); auto.
  intros s v. rewrite Bp. auto.
Qed.

(** *** The training. *)
Variable cfg : settings.
Variable rate : nat -> nat -> R.
Definition rp (p q : preds) : Prop := exists phi : sample -> R, blind phi /\ p_factors p = map phi D /\ p_factors q = map phi D'.
Definition rf (i : nat) (a b : list R) : Prop := a = b.

Lemma group_estimates_same j g p q : nth_error gs j = Some g -> rp p q ->
  group_estimates gm bppf erfinv k (bind_groups D 0 gs) (map x_y D) (map x_w D) j p =
  group_estimates gm bppf erfinv k (bind_groups D' 0 gs) (map x_y D') (map x_w D') j q.
Proof.
  intros G (phi & Bp & P & Q). unfold group_estimates. rewrite !(bind_nth gs 0 j g G). cbn [Nat.add].
  pose proof (bind_twin j g G) as T. destruct (tw_lex _ _ _ T) as (L & L1 & L2).
  rewrite L1, L2, P, Q, (twin_finite _ _ _ T). apply estimates_same; auto.
Qed.

Lemma weight_sums_same i (L : list fnum -> nat) n :
  bincounts (map (fun s => L (x_bins s i)) D) (map x_w D) n = bincounts (map (fun s => L (x_bins s i)) D') (map x_w D') n.
Proof. apply (lin_bins _ _ (fun _ => 1)); [intros s v; auto|intros s v; auto|intro; ring]. Qed.

Let calc (E : list sample) := fun (i it : nat) p => map (estimate_value bad) (group_estimates gm bppf erfinv k (bind_groups E 0 gs) (map x_y E) (map x_w E) i p).
Let smth (E : list sample) := fun (i it : nat) p => group_smoother gm bppf erfinv bad k gs (bind_groups E 0 gs) (map x_y E) (map x_w E) i p.
Let calb (E : list sample) := kind_calibration k (bind_groups E 0 gs) (map x_w E).
Let lss (E : list sample) := fun p => kind_loss bad k (map x_y E) (map x_w E) (p_factors p).

Lemma new_same j g s t it p q : nth_error gs j = Some g -> RS rf j s t -> rp p q ->
  new_factors (calc D) (smth D) (calb D) rate j (bind_group D j g) s it p =
  new_factors (calc D') (smth D') (calb D') rate j (bind_group D' j g) t it q.
Proof.
  intros G Sr P. unfold new_factors. pose proof (bind_twin j g G) as T. destruct (tw_lex _ _ _ T) as (L & L1 & L2).
  pose proof (group_estimates_same j g p q G P) as E.
  unfold calc. rewrite <- E. cbv zeta. rewrite <- (twin_finite _ _ _ T), <- (rs_zero _ _ _ _ Sr). cbn [f_mnl bind_group].
  f_equal.
  assert (C : forall v, calb D j v = calb D' j v).
  { intro v. unfold calb, kind_calibration. destruct k; auto. unfold location_calibration.
    rewrite !(bind_nth gs 0 j g G). cbn [Nat.add]. rewrite L1, L2, <- (twin_finite _ _ _ T), weight_sums_same. auto. }
  rewrite C. f_equal. f_equal. apply map_ext. intro b.
  assert (X : smth D j it p = smth D' j it q).
  { unfold smth, group_smoother. rewrite G, !(bind_nth gs 0 j g G). cbn [Nat.add].
    rewrite <- E, (tw_nbins _ _ _ T), L1, L2, <- (twin_finite _ _ _ T), weight_sums_same. auto. }
  rewrite X. auto.
Qed.

Lemma rgl_same : forall hs i, (forall j, nth_error hs j = nth_error gs (i + j)) ->
  RGL (calc D) (calc D') (smth D) (smth D') (calb D) (calb D') rate rate rp rf i (bind_groups D i hs) (bind_groups D' i hs).
Proof.
  induction hs as [|g hs IH]; intros i H; cbn [bind_groups]; constructor.
  - assert (G : nth_error gs i = Some g) by (rewrite <- (H 0%nat) || (pose proof (H 0%nat) as X; rewrite Nat.add_0_r in X; rewrite <- X); auto).
    pose proof (bind_twin i g G) as T. destruct (tw_lex _ _ _ T) as (L & L1 & L2).
    constructor; try reflexivity.
    + unfold rf. rewrite (twin_finite _ _ _ T). auto.
    + intros p q v u (phi & Bp & P & Q) <-. exists (fun s => phi s + nth (L (x_bins s i)) v 0). split; [|split].
      * intros s w. rewrite Bp. auto.
      * change (f_ext _) with false; cbn [add_preds p_factors]. rewrite P, L1, gather_map. unfold vadd. apply map2_rows.
      * change (f_ext _) with false; cbn [add_preds p_factors]. rewrite Q, L2, gather_map. unfold vadd. apply map2_rows.
    + intros p q v u (phi & Bp & P & Q) <-. exists (fun s => phi s - nth (L (x_bins s i)) v 0). split; [|split].
      * intros s w. rewrite Bp. auto.
      * change (f_ext _) with false; cbn [sub_preds p_factors]. rewrite P, L1, gather_map. unfold vsub. apply map2_rows.
      * change (f_ext _) with false; cbn [sub_preds p_factors]. rewrite Q, L2, gather_map. unfold vsub. apply map2_rows.
    + intros s t it p q Sr P. unfold rf. rewrite (new_same i g s t it p q G Sr P). auto.
  - apply IH. intro j. pose proof (H (S j)) as X. cbn in X. rewrite X. f_equal. lia.
Qed.

Variable prior_column : bool.
Lemma train_same fuel scale offset :
  ROO rp rf (train gm bppf erfinv bad k prior_column gs cfg rate fuel D scale offset)
            (train gm bppf erfinv bad k prior_column gs cfg rate fuel D' scale offset).
Proof.
  unfold train. cbv zeta. apply sim_fit; try (unfold rf; intros; subst; auto; fail).
  - apply (rgl_same gs 0). intro. auto.
  - intros p q (phi & Bp & P & Q). rewrite P, Q. apply loss_same; auto.
  - unfold rf. intros _ i f g a b u v E1 E2 -> ->. unfold clip_absolute, factor_limits. rewrite E1, E2. auto.
  - unfold rp. cbn [p_factors]. unfold prior_predictions, linked_column. destruct prior_column.
    + exists (fun s => match link_option (kind_link k) (x_prior s) with Some x => x + offset | None => scale end).
      split; [intros s v; auto|]. unfold linked_prior. rewrite !map_map. auto.
    + exists (fun _ => scale). split; [intros s v; auto|]. clear. split; [induction D|induction D']; cbn; auto; f_equal; auto.
Qed.

Lemma stores_same : forall hs i, (forall j, nth_error hs j = nth_error gs (i + j)) -> forall sl tl, RSL rf i sl tl ->
  map2 store (bind_groups D i hs) sl = map2 store (bind_groups D' i hs) tl.
Proof.
  clear enough.
  induction hs as [|g hs IH]; intros i H sl tl R; cbn [bind_groups map2]; auto. inversion R; subst; auto.
  f_equal.
  - assert (G : nth_error gs i = Some g) by (pose proof (H 0%nat) as X; rewrite Nat.add_0_r in X; rewrite <- X; auto).
    pose proof (bind_twin i g G) as T.
    assert (A : s_agg s = s_agg t). { pose proof (rs_agg _ _ _ _ H0) as A. unfold RA, rf in A. destruct (s_agg s), (s_agg t); try contradiction; congruence. }
    unfold store. rewrite A, (twin_finite _ _ _ T), (tw_nbins _ _ _ T). auto.
  - apply IH; auto. intro j. pose proof (H (S j)) as X. cbn in X. rewrite X. f_equal. lia.
Qed.

Theorem fit_same fuel :
  whole_fit gm bppf erfinv bad k prior_column gs cfg rate fuel D = whole_fit gm bppf erfinv bad k prior_column gs cfg rate fuel D'.
Proof.
  unfold whole_fit. rewrite <- scale_same. destruct (kind_scale _ _ _) as [scale|]; auto.
  cbv zeta. rewrite <- offset_kind_same.
  pose proof (train_same fuel scale (kind_offset k scale (map x_prior D) (map x_w D))) as R.
  destruct (train _ _ _ _ _ _ _ _ _ _ D _ _) as [[a|e]|], (train _ _ _ _ _ _ _ _ _ _ D' _ _) as [[b|e']|]; cbn in R; try contradiction; auto.
  - rewrite (stores_same gs 0 (fun _ => eq_refl) _ _ (rt_feats _ _ _ _ R)), (rt_iter _ _ _ _ R), (rt_loss _ _ _ _ R). auto.
  - congruence.
Qed.
End Same.

(** ** Data sets with the same content. *)
Lemma sum_perm D D' (h : sample -> R) : Permutation D D' -> sumR (map h D) = sumR (map h D').
Proof. intro P. induction P; cbn; lra. Qed.

Theorem order_irrelevant gm bppf erfinv bad k prior gs cfg rate fuel D D' : well_formed gs D -> Permutation D D' ->
  whole_fit gm bppf erfinv bad k prior gs cfg rate fuel D = whole_fit gm bppf erfinv bad k prior gs cfg rate fuel D'.
Proof.
  intros W P. apply fit_same.
  - intros i r. rewrite !in_map_iff. split; intros (s & <- & I); exists s; split; auto.
    + eapply Permutation_in; eauto.
    + eapply Permutation_in; [apply Permutation_sym|]; eauto.
  - intros h _. apply sum_perm; auto.
  - exact W.
  - right. intros h _. apply sum_perm; auto.
Qed.

Lemma content_rows D D' : same_content D D' -> forall i r,
  In r (map (fun s => x_bins s i) D) <-> In r (map (fun s => x_bins s i) D').
Proof.
  intro H. induction H as [D D' P|s u v D E|s D E Z|D D' _ IH|D D' D'' _ IH1 _ IH2]; intros i r.
  - rewrite !in_map_iff. split; intros (s & <- & I); exists s; split; auto.
    + eapply Permutation_in; eauto.
    + eapply Permutation_in; [apply Permutation_sym|]; eauto.
  - cbn. tauto.
  - cbn. split; auto. intros [<-|I]; auto.
  - symmetry. apply IH.
  - rewrite IH1. apply IH2.
Qed.

Lemma content_sums D D' : same_content D D' -> forall h : sample -> R, blind h ->
  sumR (map (fun s => x_w s * h s) D) = sumR (map (fun s => x_w s * h s) D').
Proof.
  intro H. induction H as [D D' P|s u v D E|s D E Z|D D' _ IH|D D' D'' _ IH1 _ IH2]; intros h B.
  - apply sum_perm; auto.
  - cbn. rewrite !B, E. lra.
  - cbn. rewrite E. lra.
  - symmetry. apply IH; auto.
  - rewrite IH1; auto.
Qed.

Theorem weights_multiplicities gm bppf erfinv bad k prior gs cfg rate fuel D D' : linear_kind k = true ->
  well_formed gs D -> same_content D D' ->
  whole_fit gm bppf erfinv bad k prior gs cfg rate fuel D = whole_fit gm bppf erfinv bad k prior gs cfg rate fuel D'.
Proof.
  intros K W C. apply fit_same; auto.
  - apply content_rows; auto.
  - intros. apply content_sums; auto.
Qed.

Lemma content_app E : forall D D', same_content D D' -> same_content (E ++ D) (E ++ D').
Proof.
  intros D D' H. induction H as [D D' P|s u v D W|s D W Z|D D' _ IH|D D' D'' _ IH1 _ IH2].
  - apply sc_order. apply Permutation_app; auto.
  - eapply sc_trans; [apply sc_order, Permutation_sym, Permutation_middle|].
    eapply sc_trans; [apply (sc_split s u v (E ++ D) W)|].
    apply sc_order. eapply Permutation_trans; [|apply Permutation_middle]. constructor. apply Permutation_middle.
  - eapply sc_trans; [apply sc_order, Permutation_sym, Permutation_middle|]. apply sc_zero; auto.
    intro i. rewrite map_app, in_app_iff. right. apply Z.
  - apply sc_sym; auto.
  - eapply sc_trans; eauto.
Qed.

Lemma with_own s : with_weight s (x_w s) = s.
Proof. destruct s; auto. Qed.

Lemma copies_content s m : forall D, same_content (with_weight s (INR (S m)) :: D) (copies s (S m) ++ D).
Proof.
  induction m as [|m IH]; intro D.
  - cbn. apply sc_order. auto.
  - eapply sc_trans; [apply (sc_split _ 1 (INR (S m))); cbn [with_weight x_w]; rewrite S_INR; lra|].
    apply (content_app [with_weight s 1] _ _ (IH D)).
Qed.

Theorem repeated_rows (R0 : list (sample * nat)) :
  same_content (map (fun r => with_weight (fst r) (INR (S (snd r)))) R0) (flat_map (fun r => copies (fst r) (S (snd r))) R0).
Proof.
  induction R0 as [|[s m] R0 IH]; cbn [map flat_map fst snd].
  - apply sc_order. auto.
  - eapply sc_trans; [apply (content_app [_] _ _ IH)|]. apply copies_content.
Qed.
