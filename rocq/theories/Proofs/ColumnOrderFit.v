(** Training with the columns of feature groups in another order. *)
From Coq Require Import ZArith QArith Qround List Bool Reals Lra Lia Permutation FinFun.
From Verif.Proofs Require Import FnumOrder LexFacts TrainFacts PredictFacts ChainFacts Simulation OrderFacts RenumberFacts RelabelFacts ColumnOrderFacts RefitFacts PipeRows RecodePipe.
From Verif.Model Require Import Num Flags Ecdf BinTransform Frames LexBins Train Predict Link Estimators Gbs Regularize WholeFit BinSmoothers Refit Pipe.
From Verif.Spec Require Import LexSpec PredictSpec RelabelSpec ShuffleSpec ColumnOrderSpec.
Import ListNotations.
Local Open Scope R_scope.

(** ** Smoothers *)
Lemma reordered_same {A} (d : A) l : reordered d (seq 0 (length l)) l = l.
Proof. apply map_nth_seq. Qed.
Lemma entries_renumbered {A} ps n (a b : list A) : Permutation ps (seq 0 (length n)) -> shape n -> Z.of_nat (length a) = size n ->
  same_entries ps n a b <-> renumbered (column_sigma n ps) a b.
Proof.
  intros Ps Sh La. pose proof (column_bijection ps n Ps Sh) as Bj. split.
  - intros [L H] k. destruct (Nat.lt_ge_cases k (Z.to_nat (size n))) as [Hk|Hk].
    + destruct (column_tuple n Sh k Hk) as (t & V & ->). rewrite column_sigma_number by auto. apply H. exact V.
    + rewrite (proj2 (proj2 Bj) k Hk). transitivity (@None A); [|symmetry]; apply nth_error_None; lia.
  - intros R0. split; [rewrite (renumbered_length (Z.to_nat (size n)) (column_sigma n ps) a b); auto; lia|].
    intros t V. rewrite <- (column_sigma_number ps n Sh) by auto. apply R0.
Qed.
Lemma order_free_of_labels s : ignores_centres s -> label_free_but_first s -> column_order_free s.
Proof.
  intros Ic Lf ps n w w' u u' v v' t Ps Sh Lw Lu Lv Ew Eu Ev V.
  rewrite <- (column_sigma_number ps n Sh) by auto. rewrite (Ic _ (arange_multi n)).
  pose proof (number_range _ _ V).
  apply (Lf (column_sigma n ps) (Z.to_nat (size n))); try lia.
  - apply column_bijection; auto.
  - apply column_first; auto.
  - apply entries_renumbered; auto.
  - apply entries_renumbered; auto.
  - apply entries_renumbered; auto.
Qed.
Lemma label_free_weaker s : label_free s -> label_free_but_first s.
Proof. intros H sigma n c w w1 u u1 v v1 k Bj _. apply (H sigma n); auto; exact I. Qed.
Lemma bin_values_order : column_order_free bin_values.
Proof. apply order_free_of_labels; [intros ? ? ? ? ? ?; reflexivity|]. apply label_free_weaker, bin_values_free. Qed.
Lemma default_order : column_order_free default_unordered.
Proof. apply order_free_of_labels; [intros ? ? ? ? ? ?; reflexivity|]. apply label_free_weaker, default_unordered_free. Qed.
Lemma normalised_order prior : column_order_free (normalised (weighted_mean_bins (Some prior))).
Proof. apply order_free_of_labels; [intros ? ? ? ? ? ?; reflexivity|]. apply label_free_weaker, (normalised_free _). apply weighted_mean_prior_free. Qed.
Lemma explicit_order : column_order_free explicit_mean.
Proof. apply order_free_of_labels; [intros ? ? ? ? ? ?; reflexivity|]. exact explicit_mean_free. Qed.
Lemma expectation_order prior threshold : column_order_free (prior_expectation_bins prior threshold).
Proof. apply order_free_of_labels; [intros ? ? ? ? ? ?; reflexivity|]. apply label_free_weaker, prior_expectation_free. Qed.

(** ** Whole trainings *)
Section Whole.
Variables (gm : R -> R) (bppf : R -> R -> R -> R) (erfinv : R -> R) (bad : R).
Variable k : kind.
Variable prior_column : bool.
Variable gs : list group.
Variable cfg : settings.
Variable rate : nat -> nat -> R.
Variables D D' : list sample.
Variable P : nat -> list nat.
Hypothesis groups_ok : forall i g, nth_error gs i = Some g -> (1 <= g_dim g)%nat /\ Permutation (P i) (seq 0 (g_dim g)) /\
  (forall s, In s D -> length (x_bins s i) = g_dim g) /\
  map (fun s => x_bins s i) D' = map (reordered NaN (P i)) (map (fun s => x_bins s i) D) /\
  (P i = seq 0 (g_dim g) \/ column_order_free (g_smoother g)).
Hypothesis ys_same : map x_y D' = map x_y D.
Hypothesis ws_same : map x_w D' = map x_w D.
Hypothesis priors_same : map x_prior D' = map x_prior D.

Let fin (i : nat) : nat := match nth_error gs i with Some g => f_finite (bind_group D i g) | None => 0%nat end.
Let sig (i : nat) : nat -> nat := match nth_error gs i with Some g => group_sigma (P i) (bind_group D i g) | None => fun b => b end.

Lemma group_width i g : nth_error gs i = Some g -> forall r, In r (f_rows (bind_group D i g)) -> length r = f_dim (bind_group D i g).
Proof.
  intros G r I. destruct (groups_ok i g G) as (_ & _ & W & _). cbn [f_rows f_dim bind_group] in *.
  apply in_map_iff in I. destruct I as (s & <- & I). auto.
Qed.

Theorem reordered_fit fuel :
  match whole_fit gm bppf erfinv bad k prior_column gs cfg rate fuel D, whole_fit gm bppf erfinv bad k prior_column gs cfg rate fuel D' with
  | Trained m, Trained m' =>
      o_scale m' = o_scale m /\ o_offset m' = o_offset m /\ o_iterations m' = o_iterations m /\ o_loss m' = o_loss m /\
      forall X X', Forall2 (alike gs (fun i row row' => exists g, nth_error gs i = Some g /\ length row = g_dim g /\ row' = reordered NaN (P i) row)) X X' ->
        whole_predict k prior_column m' X' = whole_predict k prior_column m X
  | r, r' => r = r'
  end.
Proof.
  apply (twin_fit gm bppf erfinv bad k prior_column gs cfg rate D D' sig fin); auto.
  - intro i. unfold fin, sig. destruct (nth_error gs i) as [g|] eqn:G.
    + destruct (groups_ok i g G) as (Dm & Ps & _). apply (group_sigma_bijection (P i) (bind_group D i g) (bind_group D' i g)); auto. apply group_width; auto.
    + split; [|split]; auto. intros a b H; auto.
  - intros i g G. unfold fin, sig. rewrite G. destruct (groups_ok i g G) as (Dm & Ps & W & Rw & _).
    split; [split; [reflexivity|]|].
    + apply (column_finite (P i)); auto. apply group_width; auto.
    + apply column_lex; auto. apply group_width; auto.
  - intros i g G. unfold fin, sig. rewrite G. destruct (groups_ok i g G) as (Dm & Ps & W & Rw & Sm).
    pose proof (group_width i g G) as Wd. set (f := bind_group D i g) in *. set (f' := bind_group D' i g).
    intros w w' u u' v v' b Lw Lu Lv Rc Ru Rv Hb.
    destruct (f_shape_or_empty f Dm Wd) as [(S1 & S2 & S3)|(_ & E2 & _)]; [|lia].
    pose proof (column_length f Wd) as Ln.
    assert (Ps' : Permutation (P i) (seq 0 (length (f_nbins f)))) by (rewrite Ln; exact Ps).
    assert (Nb : f_nbins f' = reordered 0%Z (P i) (f_nbins f)) by (apply column_nbins; auto).
    assert (Eg : group_sigma (P i) f = column_sigma (f_nbins f) (P i)) by (unfold group_sigma; destruct (Nat.eqb_spec (f_finite f) 0); [lia|reflexivity]).
    rewrite Eg in *. rewrite S2 in *. rewrite Nb. destruct (column_tuple (f_nbins f) S1 b Hb) as (t & V & ->).
    pose proof (size_pos _ S1) as Sp.
    destruct Sm as [E|Sm].
    + assert (Id : forall j, column_sigma (f_nbins f) (P i) j = j).
      { intro j. destruct (Nat.lt_ge_cases j (Z.to_nat (size (f_nbins f)))) as [Hj|Hj].
        - destruct (column_tuple (f_nbins f) S1 j Hj) as (s & Vs & ->). rewrite column_sigma_number by auto. rewrite E.
          change (g_dim g) with (f_dim f). rewrite <- Ln. rewrite reordered_same. pose proof (valid_length _ _ Vs) as Ls.
          rewrite <- Ls, reordered_same. reflexivity.
        - apply (proj2 (proj2 (column_bijection (P i) _ Ps' S1))). exact Hj. }
      rewrite (renumbered_same _ _ _ Id Rc), (renumbered_same _ _ _ Id Ru), (renumbered_same _ _ _ Id Rv), Id.
      rewrite E. change (g_dim g) with (f_dim f). rewrite <- Ln, reordered_same. reflexivity.
    + rewrite column_sigma_number by auto. apply Sm; auto; try lia; apply entries_renumbered; auto; lia.
  - intros i g s t a b row row' G Sa Sb [La Ra] (g' & G' & Lr & ->). rewrite G in G'. injection G' as <-.
    destruct (groups_ok i g G) as (Dm & Ps & W & Rw & _). unfold fin, sig in La, Ra. rewrite G in La, Ra.
    apply (column_rowpred (P i) _ _) with (a := a) (b := b); auto. apply group_width; auto.
Qed.
End Whole.

(** ** Objects *)
Lemma nodup_map_in {A B} (f : A -> B) : forall l, NoDup l -> (forall x y, In x l -> In y l -> f x = f y -> x = y) -> NoDup (map f l).
Proof.
  induction l as [|a l IH]; intros N H; cbn [map]; [constructor|]. apply NoDup_cons_iff in N. destruct N as [N1 N2]. constructor.
  - intro I. apply in_map_iff in I. destruct I as (x & E & I). apply N1. rewrite (H a x); [exact I|left; auto|right; auto|auto].
  - apply IH; auto. intros x y Ix Iy. apply H; right; auto.
Qed.
Lemma perm_positions {A} (d : A) (a b : list A) : Permutation a b -> exists ps, Permutation ps (seq 0 (length a)) /\ b = reordered d ps a.
Proof.
  intro H. pose proof (Permutation_length H) as L. apply (Permutation_nth a b d) in H. destruct H as (_ & f & Bf & If & H).
  exists (map f (seq 0 (length a))). split.
  - apply NoDup_Permutation_bis.
    + apply nodup_map_in; [apply seq_NoDup|]. intros x y Ix Iy. apply in_seq in Ix, Iy. apply If; lia.
    + rewrite map_length. auto.
    + intros x I. apply in_map_iff in I. destruct I as (y & <- & I). apply in_seq in I. apply in_seq. specialize (Bf y). lia.
  - apply nth_ext with (d := d) (d' := d); [unfold reordered; rewrite !map_length, seq_length; auto|].
    intros i Hi. unfold reordered. rewrite map_map. rewrite (H i) by lia.
    transitivity (nth i (map (fun x => nth (f x) a d) (seq 0 (length a))) (nth (f 0%nat) a d)).
    + rewrite (map_nth (fun x => nth (f x) a d)), seq_nth by lia. reflexivity.
    + apply nth_indep. rewrite map_length, seq_length. lia.
Qed.

Lemma read_columns_some cols : forall names v, read_columns cols names = Some v <-> map (get_column cols) names = map Some v.
Proof.
  induction names as [|c r IH]; intros v; cbn [read_columns map].
  - split; [intro E; injection E as <-; reflexivity|]. destruct v; [reflexivity|discriminate].
  - destruct (get_column cols c) as [x|] eqn:G.
    + destruct (read_columns cols r) as [vs|] eqn:Rd.
      * split.
        -- intro E. injection E as <-. cbn [map]. f_equal. apply IH. reflexivity.
        -- destruct v as [|y v]; [discriminate|]. cbn [map]. intro E. injection E as <- E. apply IH in E. congruence.
      * split; [discriminate|]. destruct v as [|y v]; [discriminate|]. cbn [map]. intro E. injection E as <- E. apply IH in E. congruence.
    + split; [discriminate|]. destruct v; discriminate.
Qed.
Lemma read_columns_none cols : forall names, read_columns cols names = None <-> exists c, In c names /\ get_column cols c = None.
Proof.
  induction names as [|c r IH]; cbn [read_columns].
  - split; [discriminate|]. intros (c & [] & _).
  - destruct (get_column cols c) as [x|] eqn:G.
    + destruct (read_columns cols r) as [vs|] eqn:Rd.
      * split; [discriminate|]. intros (d & [<- |I] & E); [congruence|]. assert (X : Some vs = None) by (apply IH; eauto). discriminate.
      * split; [|auto]. intros _. destruct (proj1 IH eq_refl) as (d & I & E). exists d. split; [right|]; auto.
    + split; [|auto]. intros _. exists c. split; [left|]; auto.
Qed.
Lemma read_columns_length cols names v : read_columns cols names = Some v -> length v = length names.
Proof. intro H. apply read_columns_some in H. apply (f_equal (@length _)) in H. rewrite !map_length in H. auto. Qed.
Lemma read_columns_reordered cols d ps names : Permutation ps (seq 0 (length names)) ->
  read_columns cols (reordered d ps names) = option_map (reordered [] ps) (read_columns cols names).
Proof.
  intro Ps. destruct (read_columns cols names) as [v|] eqn:E; cbn [option_map].
  - pose proof (read_columns_length _ _ _ E) as L. apply read_columns_some in E. apply read_columns_some.
    rewrite <- (reordered_map ps _ Ps (get_column cols) d None) by auto. rewrite E. apply (reordered_map ps _ Ps). auto.
  - apply read_columns_none in E. destruct E as (c & I & E). apply read_columns_none. exists c. split; [|exact E].
    apply (Permutation_in _ (Permutation_sym (reordered_perm ps _ Ps d names eq_refl))). exact I.
Qed.

Definition no_name : label := LPos 0.
Definition orders (style : list label -> group) (pl : list (list nat)) (gl : list (list label)) : Prop :=
  Forall2 (fun ps names => Permutation ps (seq 0 (length names)) /\ style (reordered no_name ps names) = style names /\
     (ps = seq 0 (length names) \/ column_order_free (g_smoother (style names)))) pl gl.
Lemma groups_orders style gl gl' : groups_reordered style gl gl' -> exists pl, orders style pl gl /\ gl' = map2 (reordered no_name) pl gl.
Proof.
  induction 1 as [|names names' gl gl' H _ (pl & O1 & ->)]; [exists []; split; [constructor|reflexivity]|].
  destruct H as [-> |(Pm & St & Fr)].
  - exists (seq 0 (length names) :: pl). split.
    + constructor; [|exact O1]. rewrite reordered_same. auto.
    + cbn [map2]. rewrite reordered_same. reflexivity.
  - destruct (perm_positions no_name _ _ Pm) as (ps & Ps & ->). exists (ps :: pl). split; [|reflexivity]. constructor; auto.
Qed.
Lemma orders_styles style pl gl : orders style pl gl -> map style (map2 (reordered no_name) pl gl) = map style gl.
Proof. induction 1 as [|ps names pl gl (_ & E & _) _ IH]; cbn; congruence. Qed.
Lemma orders_read style cols pl gl : orders style pl gl ->
  read_groups cols (map2 (reordered no_name) pl gl) = option_map (map2 (reordered []) pl) (read_groups cols gl).
Proof.
  induction 1 as [|ps names pl gl (Ps & _) _ IH]; [reflexivity|]. cbn [map2 read_groups]. rewrite (read_columns_reordered _ _ _ _ Ps), IH.
  destruct (read_columns cols names); [|reflexivity]. destruct (read_groups cols gl); reflexivity.
Qed.
Lemma read_groups_nth cols : forall gl columns i names, read_groups cols gl = Some columns -> nth_error gl i = Some names ->
  exists v, nth_error columns i = Some v /\ length v = length names.
Proof.
  induction gl as [|a gl IH]; intros columns i names E G; [destruct i; discriminate|]. cbn [read_groups] in E.
  destruct (read_columns cols a) as [v|] eqn:E1; [|discriminate]. destruct (read_groups cols gl) as [vs|]; [|discriminate]. injection E as <-.
  destruct i as [|i]; cbn [nth_error] in *; [|eapply IH; eauto]. injection G as <-. exists v. split; auto. eapply read_columns_length; eauto.
Qed.
Lemma orders_nth style pl gl i names : orders style pl gl -> nth_error gl i = Some names ->
  Permutation (nth i pl []) (seq 0 (length names)) /\ (nth i pl [] = seq 0 (length names) \/ column_order_free (g_smoother (style names))) /\ (i < length pl)%nat.
Proof.
  intro H. revert i. induction H as [|ps n pl gl (Ps & _ & Fr) _ IH]; intros [|i] G; try discriminate; cbn [nth_error nth length] in *.
  - injection G as ->. repeat split; auto; lia.
  - destruct (IH i G) as (A & B & C). repeat split; auto; lia.
Qed.
Lemma nth_map2 {A B C} (f : A -> B -> C) : forall a b i d e x, (i < length a)%nat -> nth_error b i = Some e -> nth i (map2 f a b) x = f (nth i a d) e.
Proof.
  induction a as [|u a IH]; intros [|v b] [|i] d e x L E; cbn in *; try lia; try discriminate; [congruence|]. apply IH; auto. lia.
Qed.

Lemma rows_bins columns T i : map (fun s => x_bins s i) (data_rows columns T) = map (fun r => map (fun c => nth r c NaN) (nth i columns [])) (seq 0 (length T)).
Proof.
  unfold data_rows. generalize 0%nat. induction T as [|t T IH]; intro j; cbn; auto. f_equal. apply IH.
Qed.
Lemma rows_width columns T i s : In s (data_rows columns T) -> length (x_bins s i) = length (nth i columns []).
Proof.
  intro H. apply (in_map (fun s => x_bins s i)) in H. rewrite rows_bins in H. apply in_map_iff in H. destruct H as (r & <- & _). apply map_length.
Qed.

Section Object.
Variables (gm : R -> R) (bppf : R -> R -> R -> R) (erfinv : R -> R) (bad : R).
Variable k : kind.
Variable cfg : settings.
Variable rate : nat -> nat -> R.
Variable accepted : list target -> bool.
Variable style : list label -> group.
Hypothesis dims : one_dimension_each style.
Notation fit pc := (fit_object gm bppf erfinv bad k pc cfg rate accepted style).

Lemma column_row columns r i v ps m : nth_error columns i = Some v -> length v = m -> Permutation ps (seq 0 m) ->
  forall pl, nth i pl [] = ps -> (i < length pl)%nat ->
  map (fun c => nth r c NaN) (nth i (map2 (reordered []) pl columns) []) = reordered NaN ps (map (fun c => nth r c NaN) (nth i columns [])).
Proof.
  intros E L Ps pl Ep Hp. rewrite (nth_map2 _ pl columns i [] v []) by auto. rewrite Ep, (nth_error_nth _ _ [] E).
  symmetry. apply (reordered_map ps _ Ps). exact L.
Qed.
Lemma forall2_seq {A B} (Q : A -> B -> Prop) (f : nat -> target -> A) (g : nat -> target -> B) T : (forall r t, Q (f r t) (g r t)) ->
  Forall2 Q (map2 f (seq 0 (length T)) T) (map2 g (seq 0 (length T)) T).
Proof. intro H. generalize 0%nat. induction T as [|t T IH]; intro j; cbn; constructor; auto. Qed.

Lemma fit_reordered pc fuel o o' gl gl' d : (pc = true -> forall a, k <> GBSRegressor a) ->
  b_groups o = Some gl -> b_groups o' = Some gl' -> (forall names, In names gl -> names <> []) -> groups_reordered style gl gl' ->
  let r := fit pc fuel o d in
  let r' := fit pc fuel o' d in
  fst r = fst r' /\ (fst r = None ->
    b_scale (snd r') = b_scale (snd r) /\ b_iter (snd r') = b_iter (snd r) /\ b_loss (snd r') = b_loss (snd r) /\
    forall X, predict_frame k pc (snd r') X = predict_frame k pc (snd r) X).
Proof.
  intros NG G G' Ne Gr. cbv zeta. destruct (groups_orders _ _ _ Gr) as (pl & Op & ->).
  destruct (accepted (d_targets d)) eqn:A.
  2:{ rewrite !fit_refused by exact A. split; [reflexivity|discriminate]. }
  pose proof (orders_read style (d_cols d) pl gl Op) as EG.
  destruct (read_groups (d_cols d) gl) as [columns|] eqn:Rd; cbn [option_map] in EG.
  2:{ rewrite (fit_no_column gm bppf erfinv bad k pc cfg rate accepted style fuel o gl d G A Rd).
      rewrite (fit_no_column gm bppf erfinv bad k pc cfg rate accepted style fuel o' _ d G' A EG). split; [reflexivity|].
      intro E. exfalso. destruct (kind_scale k _ _); discriminate E. }
  pose proof (fit_is_whole gm bppf erfinv bad k pc cfg rate accepted style NG fuel o gl d columns G A Rd) as H1.
  pose proof (fit_is_whole gm bppf erfinv bad k pc cfg rate accepted style NG fuel o' _ d _ G' A EG) as H2.
  rewrite (orders_styles _ _ _ Op) in H2.
  assert (Gn : forall i g, nth_error (map style gl) i = Some g -> exists names, nth_error gl i = Some names /\ g = style names /\ g_dim g = length names).
  { intros i g E. rewrite nth_error_map in E. destruct (nth_error gl i) as [names|]; [|discriminate]. injection E as <-. exists names. split; [reflexivity|]. split; [reflexivity|]. apply dims. }
  assert (Ok : forall i g, nth_error (map style gl) i = Some g -> (1 <= g_dim g)%nat /\ Permutation (nth i pl []) (seq 0 (g_dim g)) /\
    (forall s, In s (data_rows columns (d_targets d)) -> length (x_bins s i) = g_dim g) /\
    map (fun s => x_bins s i) (data_rows (map2 (reordered []) pl columns) (d_targets d)) = map (reordered NaN (nth i pl [])) (map (fun s => x_bins s i) (data_rows columns (d_targets d))) /\
    (nth i pl [] = seq 0 (g_dim g) \/ column_order_free (g_smoother g))).
  { intros i g E. destruct (Gn i g E) as (names & En & -> & Dm). rewrite Dm. destruct (orders_nth _ _ _ _ _ Op En) as (Ps & Fr & Lp).
    destruct (read_groups_nth _ _ _ _ _ Rd En) as (v & Ev & Lv).
    split; [specialize (Ne names (nth_error_In _ _ En)); destruct names; [congruence|cbn; lia]|].
    split; [exact Ps|]. split; [|split; [|exact Fr]].
    - intros s I. rewrite (rows_width _ _ _ _ I), (nth_error_nth _ _ [] Ev). exact Lv.
    - rewrite !rows_bins, map_map. apply map_ext. intro j. apply (column_row columns j i v (nth i pl []) (length names)); auto. }
  pose proof (reordered_fit gm bppf erfinv bad k pc (map style gl) cfg rate (data_rows columns (d_targets d)) (data_rows (map2 (reordered []) pl columns) (d_targets d)) (fun i => nth i pl []) Ok) as W.
  specialize (W ltac:(rewrite !rows_y; reflexivity) ltac:(rewrite !rows_w; reflexivity) ltac:(rewrite !rows_prior; reflexivity) fuel).
  destruct (whole_fit _ _ _ _ _ _ _ _ _ _ (data_rows columns _)) as [| |e|m] eqn:W1; destruct (whole_fit _ _ _ _ _ _ _ _ _ _ (data_rows (map2 _ pl columns) _)) as [| |e'|m'] eqn:W2;
    try discriminate W; try (rewrite H1, H2; split; [congruence|discriminate]).
  destruct H1 as (F1 & G1 & S1 & I1 & L1 & P1 & M1). destruct H2 as (F2 & G2 & S2 & I2 & L2 & P2 & M2). rewrite F1, F2. split; [reflexivity|]. intros _.
  destruct W as (V1 & V2 & V3 & V4 & V5). split; [congruence|]. split; [congruence|]. split; [congruence|].
  intros X. pose proof (orders_read style (d_cols X) pl gl Op) as EX.
  destruct (read_groups (d_cols X) gl) as [rows|] eqn:RX; cbn [option_map] in EX.
  2:{ unfold predict_frame. rewrite G1, G2, RX, EX. reflexivity. }
  rewrite (predict_is_whole gm bppf erfinv bad k pc cfg rate accepted style NG fuel o gl d columns m X rows G A Rd W1 RX).
  rewrite <- (orders_styles _ _ _ Op) in W2.
  rewrite (predict_is_whole gm bppf erfinv bad k pc cfg rate accepted style NG fuel o' _ d _ m' X _ G' A EG W2 EX).
  f_equal. apply V5. unfold data_rows. apply forall2_seq. intros r t. split; [reflexivity|]. intros i g E. cbn [x_bins].
  destruct (Gn i g E) as (names & En & -> & Dm). destruct (orders_nth _ _ _ _ _ Op En) as (Ps & Fr & Lp). destruct (read_groups_nth _ _ _ _ _ RX En) as (v & Ev & Lv).
  exists (style names). split; [exact E|]. split; [rewrite map_length, (nth_error_nth _ _ [] Ev), Dm; exact Lv|].
  apply (column_row rows r i v (nth i pl []) (length names)); auto.
Qed.
End Object.

(** ** Pipelines *)
Lemma pipe_reordered gm bppf erfinv bad k weight prior cfg rate accepted style b fuel o o' gl gl' X y e P1 e' P1' :
  one_dimension_each style -> (has_prior prior = true -> forall a, k <> GBSRegressor a) ->
  b_groups o = Some gl -> b_groups o' = Some gl' -> (forall names, In names gl -> names <> []) -> groups_reordered style gl gl' ->
  pipe_fit gm bppf erfinv bad k weight prior cfg rate accepted style fuel {| l_binner := b; l_object := o |} X y = (e, P1) ->
  pipe_fit gm bppf erfinv bad k weight prior cfg rate accepted style fuel {| l_binner := b; l_object := o' |} X y = (e', P1') ->
  e = e' /\ (e = None ->
    b_scale (l_object P1') = b_scale (l_object P1) /\ b_iter (l_object P1') = b_iter (l_object P1) /\ b_loss (l_object P1') = b_loss (l_object P1) /\
    forall Y, pipe_predict k weight prior P1' Y = pipe_predict k weight prior P1 Y).
Proof.
  intros dims NG G G' Ne Gr E1 E2. unfold pipe_fit in E1, E2. cbn [l_binner l_object] in E1, E2.
  destruct (bin_fit b X) as [b1|er]; [|injection E1 as <- <-; injection E2 as <- <-; split; [reflexivity|discriminate]].
  cbv zeta in E1, E2. destruct (fst (bin_transform b1 X)) as [Xt|er]; [|injection E1 as <- <-; injection E2 as <- <-; split; [reflexivity|discriminate]].
  destruct (train_targets weight prior Xt y) as [T|]; [|injection E1 as <- <-; injection E2 as <- <-; split; [reflexivity|discriminate]].
  destruct (fit_reordered gm bppf erfinv bad k cfg rate accepted style dims (has_prior prior) fuel o o' gl gl' {| d_cols := feature_columns weight prior Xt; d_targets := T |} NG G G' Ne Gr) as [H1 H2].
  destruct (fit_object _ _ _ _ _ _ _ _ _ _ fuel o _) as [[er|] o1]; destruct (fit_object _ _ _ _ _ _ _ _ _ _ fuel o' _) as [[er'|] o2]; cbn [fst snd] in H1, H2; try discriminate;
    injection E1 as <- <-; injection E2 as <- <-.
  - injection H1 as ->. split; [reflexivity|discriminate].
  - split; [reflexivity|]. intros _. destruct (H2 eq_refl) as (V1 & V2 & V3 & V4). cbn [l_object]. split; [exact V1|]. split; [exact V2|]. split; [exact V3|].
    intro Y. unfold pipe_predict. cbn [l_binner l_object]. destruct (fst (bin_transform b1 Y)) as [Yt|]; [|reflexivity].
    destruct (predict_targets prior Yt); [|reflexivity]. apply V4.
Qed.
