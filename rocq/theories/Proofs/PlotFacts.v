(** Facts about the data for plots. *)
From Coq Require Import ZArith QArith List Bool Reals Lia Lra Permutation Sorted.
From Verif.Model Require Import Num BinarySearch LexBins Train Estimators Quantile PlotData.
From Verif.Spec Require Import EstimatorSpec QuantileSpec PlotSpec.
From Verif.Proofs Require Import LexFacts TrainFacts TrainExamples PredictFacts EstimatorFacts LinkFacts GenericFacts ImportanceFacts.
Import ListNotations.
Local Open Scope R_scope.

(** ** Signs *)
Lemma tiny_pos : 0 < tiny.
Proof. unfold tiny. apply Rinv_0_lt_compat. apply pow_lt. lra. Qed.
Lemma signals_sub a b : signals (a - b) a b.
Proof. unfold signals. repeat split; intro; lra. Qed.
Lemma signals_ln a b : 0 <= a -> 0 <= b -> signals (ln (a + tiny) - ln (b + tiny)) a b.
Proof.
  intros A B. pose proof tiny_pos as T.
  assert (M : forall x y, 0 <= x -> 0 <= y -> x < y -> ln (x + tiny) < ln (y + tiny)) by (intros; apply ln_increasing; lra).
  destruct (Rtotal_order a b) as [L|[E|L]].
  - pose proof (M a b A B L). unfold signals. repeat split; intro; lra.
  - subst. unfold signals. repeat split; intro; lra.
  - pose proof (M b a B A L). unfold signals. repeat split; intro; lra.
Qed.
Lemma signals_deviation identity a b : (identity = false -> 0 <= a /\ 0 <= b) -> signals (deviation identity a b) a b.
Proof. intro H. unfold deviation. destruct identity; [apply signals_sub|]. apply signals_ln; apply H; auto. Qed.
Lemma signals_iff v a b a' b' : (b < a <-> b' < a') -> (a = b <-> a' = b') -> (a < b <-> a' < b') -> signals v a b -> signals v a' b'.
Proof. unfold signals. tauto. Qed.
Lemma smoothed_order s t v : 0 <= v -> ((s + 1) / (v + 1) < (t + 1) / (v + 1) <-> s < t).
Proof.
  intro H. split; intro L.
  - apply Rmult_lt_compat_r with (r := v + 1) in L; [|lra]. unfold Rdiv in L. rewrite !Rmult_assoc, Rinv_l, !Rmult_1_r in L by lra. lra.
  - unfold Rdiv. apply Rmult_lt_compat_r; [apply Rinv_0_lt_compat; lra|lra].
Qed.
Lemma smoothed_equal s t v : 0 <= v -> ((s + 1) / (v + 1) = (t + 1) / (v + 1) <-> s = t).
Proof.
  intro H. split; intro L; [|subst; reflexivity].
  apply (f_equal (fun x => x * (v + 1))) in L. unfold Rdiv in L. rewrite !Rmult_assoc, Rinv_l, !Rmult_1_r in L by lra. lra.
Qed.
Lemma bin_total_nonneg lex : forall v k, (forall x, In x v -> 0 <= x) -> 0 <= bin_total lex v k.
Proof.
  induction lex as [|b lex IH]; intros [|x v] k H; cbn; try lra.
  pose proof (H x (or_introl eq_refl)). pose proof (IH v k (fun y I => H y (or_intror I))). destruct (Nat.eqb b k); lra.
Qed.
Lemma bin_total_none lex : forall v k, ~ In k lex -> bin_total lex v k = 0.
Proof.
  induction lex as [|b lex IH]; intros [|x v] k H; cbn; auto. rewrite IH by (intro I; apply H; now right).
  rewrite (proj2 (Nat.eqb_neq b k)) by (intro E; apply H; now left). lra.
Qed.
Lemma products_nonneg w : forall v, (forall x, In x w -> 0 <= x) -> (forall x, In x v -> 0 <= x) -> forall x, In x (map2 Rmult w v) -> 0 <= x.
Proof.
  induction w as [|a w IH]; intros [|b v] W V x I; cbn in I; try contradiction.
  destruct I as [<-|I].
  - apply Rmult_le_pos; [apply W; now left|apply V; now left].
  - apply (IH v); auto; intros z Iz; [apply W|apply V]; now right.
Qed.
Lemma nth_error_map2 {A B C} (f : A -> B -> C) a : forall b k x y, nth_error a k = Some x -> nth_error b k = Some y ->
  nth_error (map2 f a b) k = Some (f x y).
Proof. induction a as [|a0 a IH]; intros [|b0 b] [|k] x y; cbn; try discriminate; auto. congruence. Qed.
Lemma bin_product lex w v k : per_row lex w -> per_row lex v ->
  bin_total lex (map2 Rmult w v) k = bin_sum lex (fun j => at_row w j * at_row v j) k.
Proof.
  intros W V. rewrite bin_total_sum by (apply pr_map2; auto). apply bin_sum_ext. intros j Hj. apply (at_map2 lex); auto.
Qed.

(** ** The base version *)
Lemma base_lengths identity lex n y w pred : entry_per_bin n (prepare_plots identity lex n y w pred).
Proof.
  unfold entry_per_bin, prepare_plots, plot_values. cbn [d_dev d_y d_pred]. rewrite !map_length.
  repeat rewrite map2_length; rewrite ?bincounts_length; auto; repeat rewrite map2_length; rewrite ?bincounts_length; auto.
Qed.
Lemma base_signs identity lex n y w pred k : per_row lex y -> per_row lex w -> per_row lex pred -> nonneg w ->
  (identity = false -> nonneg y /\ nonneg pred) -> (k <= n)%nat ->
  exists v, nth_error (d_dev (prepare_plots identity lex n y w pred)) k = Some v /\
    signals v (bin_sum lex (fun j => at_row w j * at_row pred j) k) (bin_sum lex (fun j => at_row w j * at_row y j) k) /\
    (~ In k lex -> v = 0).
Proof.
  intros Ly Lw Lp W NN Hk.
  set (sw := bin_total lex w k). set (sy := bin_total lex (map2 Rmult w y) k). set (sp := bin_total lex (map2 Rmult w pred) k).
  assert (Hw : 0 <= sw) by (apply bin_total_nonneg; exact W).
  exists (deviation identity ((sp + 1) / (sw + 1)) ((sy + 1) / (sw + 1))). split; [|split].
  - unfold prepare_plots, plot_values. cbn [d_dev].
    apply nth_error_map2; apply (nth_error_map2 (fun s v => (s + 1) / (v + 1))); apply nth_bincounts; lia.
  - rewrite <- !bin_product by auto. fold sy sp.
    eapply signals_iff; [| | |apply (signals_deviation identity ((sp + 1) / (sw + 1)) ((sy + 1) / (sw + 1)))].
    + apply smoothed_order; auto.
    + apply smoothed_equal; auto.
    + apply smoothed_order; auto.
    + intro E. destruct (NN E) as [Ny Np].
      assert (0 <= sy) by (apply bin_total_nonneg; apply products_nonneg; auto).
      assert (0 <= sp) by (apply bin_total_nonneg; apply products_nonneg; auto).
      split; (apply Rmult_le_pos; [lra|left; apply Rinv_0_lt_compat; lra]).
  - intro N. unfold sw, sy, sp. rewrite !bin_total_none by auto. unfold deviation. destruct identity; lra.
Qed.

(** ** Quantile estimators *)
Lemma insert_missing {A} (d : A) (f : nat -> A) o m : forall k pre, length pre = k ->
  fold_left (fun l i => insert_at i d l) (filter (fun b => negb (o b)) (seq k m)) (pre ++ map f (filter o (seq k m))) =
  pre ++ map (fun b => if o b then f b else d) (seq k m).
Proof.
  induction m as [|m IH]; intros k pre L; [reflexivity|].
  cbn [seq filter map]. destruct (o k) eqn:E; cbn [negb filter map fold_left].
  - replace (pre ++ f k :: map f (filter o (seq (S k) m))) with ((pre ++ [f k]) ++ map f (filter o (seq (S k) m))) by (now rewrite <- app_assoc).
    rewrite IH by (rewrite app_length; cbn; lia). now rewrite <- app_assoc.
  - replace (insert_at k d (pre ++ map f (filter o (seq (S k) m)))) with ((pre ++ [d]) ++ map f (filter o (seq (S k) m))) by (rewrite <- insert_here, L; reflexivity).
    rewrite IH by (rewrite app_length; cbn; lia). now rewrite <- app_assoc.
Qed.
Lemma map_opt_some {A B} (f : A -> option B) (g : A -> B) l : (forall x, In x l -> f x = Some (g x)) -> map_opt f l = Some (map g l).
Proof.
  induction l as [|x l IH]; intro H; [reflexivity|]. cbn. rewrite (H x (or_introl eq_refl)), IH by (intros; apply H; now right). reflexivity.
Qed.
Lemma occupied_iff lex b : occupied lex b = true <-> In b lex.
Proof.
  unfold occupied. rewrite existsb_exists. split.
  - intros (x & I & E). apply Nat.eqb_eq in E. now subst.
  - intro I. exists b. split; auto. apply Nat.eqb_refl.
Qed.
Lemma below_top lex b : In b lex -> (b <= list_max lex)%nat.
Proof. intro I. pose proof (proj1 (list_max_le lex (list_max lex)) (le_n _)) as F. rewrite Forall_forall in F. auto. Qed.
Lemma top_in lex : lex <> [] -> In (list_max lex) lex.
Proof.
  induction lex as [|b lex IH]; intro N; [congruence|]. destruct lex as [|c lex].
  - cbn. left. lia.
  - specialize (IH ltac:(discriminate)). change (list_max (b :: c :: lex)) with (Nat.max b (list_max (c :: lex))).
    destruct (Nat.max_spec b (list_max (c :: lex))) as [[_ ->]|[_ ->]]; [now right|now left].
Qed.
Lemma rows_in_weights lex : forall y w b, length y = length lex -> length w = length lex -> (forall v, In v w -> 0 < v) -> In b lex ->
  weighted_rows (rows_in b lex (combine y w)).
Proof.
  induction lex as [|c lex IH]; intros [|yy y] [|ww w] b Ly Lw P I; cbn in Ly, Lw; try lia; [contradiction|].
  unfold rows_in. cbn [combine filter fst]. pose proof (P ww (or_introl eq_refl)) as Pw.
  assert (T : (forall r, In r (rows_in b lex (combine y w)) -> 0 <= snd r)).
  { intros r Ir. unfold rows_in in Ir. apply in_map_iff in Ir. destruct Ir as ([b' r'] & <- & Ir). apply filter_In in Ir. destruct Ir as [Ir _].
    apply in_combine_r in Ir. destruct r' as [ry rw]. apply in_combine_r in Ir. cbn. left. apply P. now right. }
  destruct (Nat.eqb_spec c b) as [E|E].
  - split.
    + intros r Ir. cbn in Ir. destruct Ir as [<-|Ir]; [cbn; lra|]. apply T. exact Ir.
    + unfold total_weight. cbn [map sumR snd]. assert (0 <= sumR (map snd (rows_in b lex (combine y w)))); [|unfold rows_in in *; lra].
      assert (G : forall l : list R, (forall x, In x l -> 0 <= x) -> 0 <= sumR l).
      { induction l as [|x l IHl]; intro H; cbn; [lra|]. pose proof (H x (or_introl eq_refl)). pose proof (IHl (fun z Iz => H z (or_intror Iz))). lra. }
      apply G. intros x Ix. apply in_map_iff in Ix. destruct Ix as (r & <- & Ir). auto.
  - apply IH; auto; try lia. { intros v Iv. apply P. now right. } destruct I as [I|I]; [congruence|exact I].
Qed.
Lemma all_weights y : forall w, length y = length w -> y <> [] -> (forall v, In v w -> 0 < v) -> weighted_rows (combine y w).
Proof.
  intros w L N P. split.
  - intros [a b] I. apply in_combine_r in I. cbn. left. auto.
  - destruct y as [|y0 y]; [congruence|]. destruct w as [|w0 w]; [discriminate|]. unfold total_weight. cbn [combine map sumR snd].
    assert (G : forall l : list R, (forall x, In x l -> 0 <= x) -> 0 <= sumR l).
    { induction l as [|x l IHl]; intro H; cbn; [lra|]. pose proof (H x (or_introl eq_refl)). pose proof (IHl (fun z Iz => H z (or_intror Iz))). lra. }
    assert (0 <= sumR (map snd (combine y w))).
    { apply G. intros x I. apply in_map_iff in I. destruct I as ([a b] & <- & I). apply in_combine_r in I. cbn. left. apply P. now right. }
    pose proof (P w0 (or_introl eq_refl)). lra.
Qed.
Lemma bin_total_positive lex : forall w b, length w = length lex -> (forall v, In v w -> 0 < v) -> In b lex -> 0 < bin_total lex w b.
Proof.
  induction lex as [|c lex IH]; intros [|x w] b L P I; cbn in L; try lia; [contradiction|]. cbn [bin_total].
  pose proof (P x (or_introl eq_refl)). pose proof (bin_total_nonneg lex w b (fun v Iv => Rlt_le _ _ (P v (or_intror Iv)))).
  destruct (Nat.eqb_spec c b); [lra|]. destruct I as [I|I]; [congruence|]. pose proof (IH w b ltac:(lia) (fun v Iv => P v (or_intror Iv)) I). lra.
Qed.

Lemma nth_error_seq_map {A} (f : nat -> A) n k : (k < n)%nat -> nth_error (map f (seq 0 n)) k = Some (f k).
Proof.
  intro H. rewrite nth_error_map. rewrite (nth_error_nth' _ 0%nat) by (now rewrite seq_length). now rewrite seq_nth by exact H.
Qed.
Lemma quantile_data sort identity q lex n y w pred : sorts sort -> 0 < q <= 1 -> lex <> [] ->
  per_row lex y -> per_row lex w -> per_row lex pred -> (forall v, In v w -> 0 < v) -> (forall b, In b lex -> (b <= n)%nat) ->
  (identity = false -> nonneg pred) ->
  exists d, quantile_plots sort identity q lex n y w pred = Some d /\
    ((n <= S (list_max lex))%nat <-> entry_per_bin n d) /\
    forall k, In k lex -> exists t v, continuous_quantile sort (rows_in k lex (combine y w)) q = Some t /\
      nth_error (d_dev d) k = Some v /\
      v = deviation identity (bin_mean lex w pred k) t.
Proof.
  intros HS Hq NE Ly Lw Lp P Hb Np. set (top := list_max lex).
  assert (Q : forall b, In b lex -> exists t, continuous_quantile sort (rows_in b lex (combine y w)) q = Some t).
  { intros b I. destruct (continuous_some sort q (rows_in b lex (combine y w)) HS) as (v & _ & a & m & c & _ & _ & _ & _ & E); auto.
    - apply rows_in_weights; auto.
    - rewrite E. eauto. }
  pose (g := fun b => match continuous_quantile sort (rows_in b lex (combine y w)) q with Some t => t | None => 0 end).
  assert (EG : map_opt (fun b => continuous_quantile sort (rows_in b lex (combine y w)) q) (filter (occupied lex) (seq 0 (S top))) =
               Some (map g (filter (occupied lex) (seq 0 (S top))))).
  { apply map_opt_some. intros b I. apply filter_In in I. destruct I as [_ O]. apply occupied_iff in O. destruct (Q b O) as (t & E). unfold g. rewrite E. reflexivity. }
  destruct (continuous_some sort q (combine y w) HS) as (v0 & _ & a0 & m0 & c0 & _ & _ & _ & _ & EY); auto.
  { apply all_weights; auto. - unfold per_row in *. congruence. - intro E. subst y. unfold per_row in Ly. destruct lex; [congruence|discriminate]. }
  unfold quantile_plots. fold top. rewrite EG, EY. cbv zeta. eexists. split; [reflexivity|].
  pose proof (insert_missing 1 g (occupied lex) (S top) 0%nat [] eq_refl) as IM. cbn [app] in IM. rewrite IM. clear IM.
  set (target := map (fun b => if occupied lex b then g b else 1) (seq 0 (S top))).
  set (prediction := map2 (fun p v => if Reqb v 0 then 1 else p / v) (bincounts lex (map2 Rmult w pred) (S top)) (bincounts lex w (S top))).
  assert (LT : length target = S top) by (unfold target; rewrite map_length, seq_length; reflexivity).
  assert (LP : length prediction = S top) by (unfold prediction; rewrite map2_length; rewrite ?bincounts_length; auto).
  set (padded := fun l : list R => if Nat.eqb (length l + 1) (S n) then l ++ [1] else l).
  assert (LPD : forall l, length l = S top -> length (padded l) = if Nat.eqb (S top) n then S n else S top).
  { intros l L. unfold padded. rewrite L. destruct (Nat.eqb_spec (S top + 1) (S n)) as [E|E]; destruct (Nat.eqb_spec (S top) n) as [E'|E']; try lia.
    rewrite app_length, L. cbn. lia. }
  assert (NPD : forall l k x, nth_error l k = Some x -> nth_error (padded l) k = Some x).
  { intros l k x E. unfold padded. destruct (Nat.eqb (length l + 1) (S n)); [|exact E].
    assert (k < length l)%nat by (apply nth_error_Some; congruence). rewrite nth_error_app1; auto. }
  assert (TN : (top <= n)%nat) by (apply Hb; apply top_in; auto).
  split.
  - unfold entry_per_bin, plot_values. cbn [d_dev d_y d_pred]. rewrite !map_length.
    rewrite map2_length by (fold (padded target) (padded prediction); rewrite !LPD; auto).
    fold (padded target) (padded prediction). rewrite !LPD by auto. destruct (Nat.eqb_spec (S top) n) as [E|E]; lia.
  - intros k I. destruct (Q k I) as (t & ET). exists t, (deviation identity (bin_mean lex w pred k) t). split; [exact ET|]. split; [|reflexivity].
    unfold plot_values. cbn [d_dev]. pose proof (below_top lex k I) as Hk. fold top in Hk.
    assert (PK : nth_error prediction k = Some (bin_mean lex w pred k)).
    { unfold prediction. rewrite (nth_error_map2 (fun p v => if Reqb v 0 then 1 else p / v) _ _ k (bin_total lex (map2 Rmult w pred) k) (bin_total lex w k));
        [|apply nth_bincounts; lia|apply nth_bincounts; lia].
      pose proof (bin_total_positive lex w k Lw P I) as Pk. rewrite (proj2 (Reqb_false_iff _ _)) by lra.
      unfold bin_mean. rewrite <- bin_product by auto. rewrite <- bin_total_sum by auto. reflexivity. }
    assert (TK : nth_error target k = Some t).
    { unfold target. rewrite nth_error_seq_map by lia. rewrite (proj2 (occupied_iff lex k) I). unfold g. rewrite ET. reflexivity. }
    apply (nth_error_map2 (deviation identity)); apply NPD; [exact PK|exact TK].
Qed.

Lemma bin_mean_nonneg lex w v k : per_row lex w -> per_row lex v -> nonneg w -> nonneg v -> 0 <= bin_mean lex w v k.
Proof.
  intros Lw Lv W V. unfold bin_mean. rewrite <- bin_product, <- bin_total_sum by auto.
  assert (A : 0 <= bin_total lex (map2 Rmult w v) k) by (apply bin_total_nonneg; apply products_nonneg; auto).
  assert (B : 0 <= bin_total lex w k) by (apply bin_total_nonneg; auto).
  destruct (Req_dec (bin_total lex w k) 0) as [E|E].
  - rewrite E. unfold Rdiv. rewrite Rinv_0. lra.
  - apply Rmult_le_pos; [exact A|]. left. apply Rinv_0_lt_compat. lra.
Qed.
Lemma quantile_signs sort identity q lex n y w pred : sorts sort -> 0 < q <= 1 -> lex <> [] ->
  per_row lex y -> per_row lex w -> per_row lex pred -> (forall v, In v w -> 0 < v) -> (forall b, In b lex -> (b <= n)%nat) ->
  (identity = false -> nonneg pred) ->
  exists d, quantile_plots sort identity q lex n y w pred = Some d /\
    (entry_per_bin n d <-> exists b, In b lex /\ (n <= S b)%nat) /\
    forall k, In k lex -> exists t v, continuous_quantile sort (rows_in k lex (combine y w)) q = Some t /\
      nth_error (d_dev d) k = Some v /\ ((identity = false -> 0 <= t) -> signals v (bin_mean lex w pred k) t).
Proof.
  intros HS Hq NE Ly Lw Lp P Hb Np. destruct (quantile_data sort identity q lex n y w pred) as (d & E & L & K); auto.
  exists d. split; [exact E|]. split.
  - rewrite <- L. split.
    + intro H. exists (list_max lex). split; auto. apply top_in; auto.
    + intros (b & I & H). pose proof (below_top lex b I). lia.
  - intros k I. destruct (K k I) as (t & v & ET & EV & ->). exists t, (deviation identity (bin_mean lex w pred k) t).
    split; [exact ET|]. split; [exact EV|]. intro T. apply signals_deviation. intro Ei. split; auto.
    apply bin_mean_nonneg; auto. intros x Ix. left. auto.
Qed.

(** ** Features of one column *)
Lemma col_max_one rs : forall r, length r = 1%nat -> (forall x, In x rs -> length x = 1%nat) -> In (fold_left col_max rs r) (r :: rs).
Proof.
  induction rs as [|x rs IH]; intros r Lr Lrs; [now left|]. cbn [fold_left].
  destruct r as [|a [|? ?]]; cbn in Lr; try lia. pose proof (Lrs x (or_introl eq_refl)) as Lx. destruct x as [|b [|? ?]]; cbn in Lx; try lia.
  cbn [col_max]. destruct (fle a b).
  - right. apply (IH [b]); auto. intros z Iz. apply Lrs. now right.
  - destruct (IH [a] eq_refl) as [I|I]; [intros z Iz; apply Lrs; now right|now left|right; now right].
Qed.
Lemma one_column f : f_dim f = 1%nat -> (forall r, In r (f_rows f) -> length r = 1%nat) -> f_rows f <> [] ->
  exists b, In b (f_lex f) /\ (f_finite f <= S b)%nat.
Proof.
  intros D L NE. pose proof (f_shape_or_empty f ltac:(lia) ltac:(intros r I; rewrite D; auto)) as SH.
  assert (LEX : forall j row, nth_error (f_rows f) j = Some row -> In (nth j (f_lex f) 0%nat) (f_lex f)).
  { intros j row J. apply nth_In. rewrite f_lex_length. apply nth_error_Some. congruence. }
  destruct SH as [(SH & FF & FP)|(_ & FF & _)].
  - pose proof (f_nbins_data f) as ND. rewrite D in ND. unfold data_n_bins in ND.
    destruct (filter row_finite_semi_positive (f_rows f)) as [|r rs] eqn:F.
    { exfalso. rewrite ND in SH. cbn in SH. inversion SH; lia. }
    assert (U : forall x, In x (r :: rs) -> In x (f_rows f) /\ row_finite_semi_positive x = true) by (intros x I; rewrite <- F in I; apply filter_In in I; exact I).
    pose proof (col_max_one rs r) as C. destruct (U (fold_left col_max rs r)) as [IR UR].
    { apply C; [apply L; apply U; now left|intros x I; apply L; apply U; now right]. }
    set (m := fold_left col_max rs r) in *. destruct (In_nth_error _ _ IR) as (j & J).
    exists (nth j (f_lex f) 0%nat). split; [eapply LEX; eauto|].
    rewrite (f_lex_nth f ltac:(lia) ltac:(intros x I; rewrite D; auto) j m J), UR.
    rewrite FF, ND. pose proof (L m IR) as Lm. destruct m as [|x [|? ?]]; cbn in Lm; try lia. cbn. lia.
  - destruct (f_rows f) as [|r rs] eqn:E; [congruence|]. exists (nth 0 (f_lex f) 0%nat). split; [|lia].
    apply (LEX 0%nat r). reflexivity.
Qed.

(** ** Witnesses *)
Lemma empty_level_witness : exists lex n y w pred k v,
  per_row lex y /\ per_row lex w /\ per_row lex pred /\ nonneg w /\ (k < n)%nat /\ ~ In k lex /\
  nth_error (d_y (prepare_plots true lex n y w pred)) k = Some v /\ v = -9 /\
  nth_error (d_pred (prepare_plots true lex n y w pred)) k = Some v.
Proof.
  exists [1%nat], 2%nat, [10], [1], [10], 0%nat, (-9). split; [reflexivity|]. split; [reflexivity|]. split; [reflexivity|].
  split; [intros x [<-|[]]; lra|]. split; [lia|]. split; [intros [H|[]]; discriminate|].
  split; [cbn; f_equal; unfold relative; field|]. split; [reflexivity|]. cbn. f_equal. unfold relative. field.
Qed.
Definition corner_feature : feature :=
  {| f_dim := 2; f_rows := [[Fin 0%Q; Fin 1%Q]; [Fin 1%Q; Fin 0%Q]]; f_hier := false; f_mnl := false; f_ext := false |}.
Lemma corner_witness sort : sorts sort -> exists d,
  quantile_plots sort true (1/2) (f_lex corner_feature) (f_finite corner_feature) [3; 5] [1; 1] [4; 4] = Some d /\
  ~ entry_per_bin (f_finite corner_feature) d.
Proof.
  intro HS. assert (EL : f_lex corner_feature = [1%nat; 2%nat]) by reflexivity. assert (EN : f_finite corner_feature = 4%nat) by reflexivity.
  rewrite EL, EN. destruct (quantile_signs sort true (1/2) [1%nat; 2%nat] 4 [3; 5] [1; 1] [4; 4]) as (d & E & L & _); auto; try discriminate; try reflexivity.
  - lra.
  - intros v [<-|[<-|[]]]; lra.
  - intros b [<-|[<-|[]]]; lia.
  - exists d. split; [exact E|]. intro H. apply L in H. destruct H as (b & [<-|[<-|[]]] & H); lia.
Qed.
Lemma one_column_plots sort identity q f y w pred : sorts sort -> 0 < q <= 1 ->
  f_dim f = 1%nat -> (forall r, In r (f_rows f) -> length r = 1%nat) -> f_rows f <> [] ->
  per_row (f_lex f) y -> per_row (f_lex f) w -> per_row (f_lex f) pred -> (forall v, In v w -> 0 < v) ->
  (identity = false -> nonneg pred) ->
  exists d, quantile_plots sort identity q (f_lex f) (f_finite f) y w pred = Some d /\ entry_per_bin (f_finite f) d.
Proof.
  intros HS Hq D L NE Ly Lw Lp P Np.
  assert (NL : f_lex f <> []).
  { intro E. pose proof (f_lex_length f) as FL. rewrite E in FL. destruct (f_rows f); [congruence|discriminate]. }
  destruct (quantile_signs sort identity q (f_lex f) (f_finite f) y w pred) as (d & E & LE & _); auto.
  - intros b I. pose proof (f_lex_bound f b ltac:(lia) ltac:(intros r Ir; rewrite D; auto) I). lia.
  - exists d. split; [exact E|]. apply LE. apply one_column; auto.
Qed.
Lemma base_plots : forall identity lex n y w pred, per_row lex y -> per_row lex w -> per_row lex pred -> nonneg w ->
  (identity = false -> nonneg y /\ nonneg pred) ->
  entry_per_bin n (prepare_plots identity lex n y w pred) /\
  forall k, (k <= n)%nat -> exists v, nth_error (d_dev (prepare_plots identity lex n y w pred)) k = Some v /\
    signals v (bin_sum lex (fun j => at_row w j * at_row pred j) k) (bin_sum lex (fun j => at_row w j * at_row y j) k) /\
    (~ In k lex -> v = 0).
Proof. intros. split; [apply base_lengths|]. intros. apply base_signs; auto. Qed.
Lemma base_example : exists lex y w pred, per_row lex y /\ per_row lex w /\ per_row lex pred /\ nonneg w /\
  nonneg y /\ nonneg pred /\ exists v, nth_error (d_dev (prepare_plots false lex 1 y w pred)) 0 = Some v /\ 0 < v.
Proof.
  exists [0%nat; 0%nat], [1; 2], [1; 1/2], [2; 2]. split; [reflexivity|]. split; [reflexivity|]. split; [reflexivity|].
  assert (A : nonneg [1; 1/2]) by (intros x [<-|[<-|[]]]; lra). assert (B : nonneg [1; 2]) by (intros x [<-|[<-|[]]]; lra).
  assert (C : nonneg [2; 2]) by (intros x [<-|[<-|[]]]; lra).
  split; [exact A|]. split; [exact B|]. split; [exact C|].
  destruct (base_signs false [0%nat; 0%nat] 1 [1; 2] [1; 1/2] [2; 2] 0%nat) as (v & E & S & _); auto; try reflexivity; try lia.
  exists v. split; [exact E|]. apply S. cbn. lra.
Qed.
