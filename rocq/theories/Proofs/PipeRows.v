(** Predictions of whole pipelines, row by row. *)
From Coq Require Import ZArith NArith QArith Qreals List Bool Reals String Lia.
From Verif.Proofs Require Import FlagFacts TransformFacts FrameFacts NeutralFacts RefitFacts.
From Verif.Model Require Import Num BinarySearch Flags Ecdf BinTransform Frames LexBins Train Predict Link Estimators WholeFit Refit Pipe.
From Verif.Spec Require Import SearchSpec BinningSpec FrameSpec PipeSpec PredictSpec.
Import ListNotations.

Lemma group_sum_row c e ms : forall i (x x' : datarow), (forall n, x n = x' n) -> group_sum c e i ms x = group_sum c e i ms x'.
Proof. induction ms as [|m r IH]; intros i x x' E; cbn [group_sum]; [reflexivity|]. rewrite E, (IH (S i) x x' E). reflexivity. Qed.

Lemma nth_rows columns T j : (j < List.length T)%nat ->
  exists t, nth_error T j = Some t /\
  nth_error (data_rows columns T) j = Some {| x_bins := fun i => map (fun c => nth j c NaN) (nth i columns []);
     x_prior := v_prior t; x_y := v_y t; x_w := v_w t |}.
Proof.
  intro H. unfold data_rows.
  assert (G : forall T s j, (j < List.length T)%nat -> exists t, nth_error T j = Some t /\
    nth_error (map2 (fun r t => {| x_bins := fun i => map (fun c => nth r c NaN) (nth i columns []); x_prior := v_prior t; x_y := v_y t; x_w := v_w t |})
      (seq s (List.length T)) T) j =
    Some {| x_bins := fun i => map (fun c => nth (s + j) c NaN) (nth i columns []); x_prior := v_prior t; x_y := v_y t; x_w := v_w t |}).
  { clear. induction T as [|t T IH]; intros s [|j] H; cbn [List.length seq map2] in *; try lia.
    - exists t. cbn. rewrite Nat.add_0_r. auto.
    - destruct (IH (S s) j) as (u & A & B); [lia|]. exists u. split; [exact A|]. cbn [nth_error]. rewrite B. rewrite Nat.add_succ_r. reflexivity. }
  destruct (G T 0%nat j H) as (t & A & B). exists t. split; auto.
Qed.
Lemma rows_length columns T : List.length (data_rows columns T) = List.length T.
Proof. rewrite <- (map_length x_y), rows_y, map_length. reflexivity. Qed.

(** One prediction of the estimator. *)
Lemma frame_row k pc o gl X r : b_groups o = Some gl -> predict_frame k pc o X = Some r ->
  exists s columns, b_scale o = Some s /\ read_groups (d_cols X) gl = Some columns /\ List.length r = List.length (d_targets X) /\
  forall j, (j < List.length (d_targets X))%nat ->
  exists t, nth_error (d_targets X) j = Some t /\
    nth_error r j = Some (kind_output k
      ((if pc then match link_option (kind_link k) (v_prior t) with Some x => x + b_offset o | None => s end else s) +
       group_sum alone false 0 (map2 store (b_bound o) (present (b_states o))) (fun i => map (fun c => nth j c NaN) (nth i columns []))))%R.
Proof.
  intros G H. unfold predict_frame in H. rewrite G in H. destruct (read_groups (d_cols X) gl) as [columns|]; [|discriminate].
  unfold predict_object in H. destruct (b_scale o) as [s|]; [|discriminate]. injection H as <-.
  exists s, columns. split; [reflexivity|]. split; [reflexivity|].
  set (D := data_rows columns (d_targets X)).
  destruct (NeutralFacts.predict_rows (kind_output k) s (b_offset o) (map2 store (b_bound o) (present (b_states o)))
    (linked_column k pc D) (map x_bins D)) as [L E].
  { unfold linked_column, linked_prior. intros l Hl. destruct pc; [|discriminate]. injection Hl as <-. rewrite !map_length. reflexivity. }
  split. { rewrite L, map_length. apply rows_length. }
  intros j Hj. destruct (nth_rows columns (d_targets X) j Hj) as (t & A & B). exists t. split; [exact A|].
  fold D in B. specialize (E j (fun i => map (fun c => nth j c NaN) (nth i columns []))).
  rewrite E by (rewrite nth_error_map, B; reflexivity). do 3 f_equal.
  unfold prior_of, linked_column. destruct pc; [|reflexivity]. unfold linked_prior, D. rewrite rows_prior, map_map.
  rewrite (nth_error_nth _ j None (x := link_option (kind_link k) (v_prior t))); [reflexivity|]. rewrite nth_error_map, A. reflexivity.
Qed.

Lemma read_columns_same cols cols' (i j : nat) (R : label -> Prop) names v v' :
  (forall c x x', In c names -> get_column cols c = Some x -> get_column cols' c = Some x' -> nth i x NaN = nth j x' NaN) ->
  read_columns cols names = Some v -> read_columns cols' names = Some v' ->
  map (fun c => nth i c NaN) v = map (fun c => nth j c NaN) v'.
Proof.
  revert v v'. induction names as [|c r IH]; intros v v' H E E'; cbn [read_columns] in *.
  - injection E as <-. injection E' as <-. reflexivity.
  - destruct (get_column cols c) as [x|] eqn:Gc; [|discriminate]. destruct (read_columns cols r) as [w|]; [|discriminate].
    destruct (get_column cols' c) as [x'|] eqn:Gc'; [|discriminate]. destruct (read_columns cols' r) as [w'|]; [|discriminate].
    injection E as <-. injection E' as <-. cbn [map]. f_equal.
    + apply (H c); auto. left; reflexivity.
    + apply IH; auto. intros d y y' Hd. apply H. right. exact Hd.
Qed.
Lemma read_groups_same cols cols' (i j : nat) gl : forall v v',
  (forall c x x', get_column cols c = Some x -> get_column cols' c = Some x' -> nth i x NaN = nth j x' NaN) ->
  read_groups cols gl = Some v -> read_groups cols' gl = Some v' ->
  forall n, map (fun c => nth i c NaN) (nth n v []) = map (fun c => nth j c NaN) (nth n v' []).
Proof.
  induction gl as [|g r IH]; intros v v' H E E' n; cbn [read_groups] in *.
  - injection E as <-. injection E' as <-. destruct n; reflexivity.
  - destruct (read_columns cols g) as [x|] eqn:Gc; [|discriminate]. destruct (read_groups cols r) as [w|]; [|discriminate].
    destruct (read_columns cols' g) as [x'|] eqn:Gc'; [|discriminate]. destruct (read_groups cols' r) as [w'|]; [|discriminate].
    injection E as <-. injection E' as <-. destruct n; cbn [nth].
    + apply (read_columns_same cols cols' i j (fun _ => True) g); auto. intros c y y' _. apply H.
    + apply IH; auto.
Qed.
Lemma get_filter {A} (f : label -> bool) (cols : list (label * A)) c : get_column (filter (fun cv => f (fst cv)) cols) c = if f c then get_column cols c else None.
Proof.
  induction cols as [|[d v] r IH]; cbn [filter get_column fst]; [destruct (f c); reflexivity|].
  destruct (f d) eqn:F; cbn [get_column]; rewrite ?IH; destruct (label_eqb d c) eqn:L; auto.
  - apply label_eqb_iff in L. subst. rewrite F. reflexivity.
  - apply label_eqb_iff in L. subst. rewrite F. reflexivity.
Qed.

(** The binned frame, cell by cell. *)
Lemma learned_or_not b T b' c : table T -> bin_fit b T = FOk b' ->
  (exists p f g, learned b T c p f /\ forall x, transform_column p f x = Some (map g x)) \/ (forall p, ~ feature_column b T c p).
Proof.
  intros TT F. destruct (bin_fit_spec _ _ _ (proj1 TT) F) as (B1 & B2 & B3 & l & B4 & B5 & B6 & B7 & B8 & _).
  destruct (get_column l c) as [f|] eqn:E.
  - left. apply get_in in E. destruct (B7 c f E) as (K & p & P & L). pose proof L as L0. destruct L0 as (t & ws & _ & _ & _ & Ef).
    apply property_declares in P. destruct P as [_ P]. destruct (column_map p f K P) as (g & Hg); [eauto 10|]. exists p, f, g. auto.
  - right. intros p H. assert (I : In c (map fst l)) by (apply B6; exists p; exact H).
    apply in_map_iff in I. destruct I as ([d g] & E1 & I). cbn in E1. subst d.
    apply (get_of_in _ _ _ B5) in I. congruence.
Qed.
Lemma binned_cell b T b' Y Xt Y' Xt' i j : table T -> table Y -> table Y' -> bin_fit b T = FOk b' ->
  fst (bin_transform b' Y) = FOk Xt -> fst (bin_transform b' Y') = FOk Xt' ->
  (i < List.length (fr_index Y))%nat -> (j < List.length (fr_index Y'))%nat ->
  rows_agree (fun c v v' => v = v' \/ same_bin b T c v v') Y i Y' j ->
  forall c x x', get_column (fr_cols Xt) c = Some x -> get_column (fr_cols Xt') c = Some x' -> nth i x NaN = nth j x' NaN.
Proof.
  intros TT TY TY' F E E' Hi Hj A c x x' G G'.
  destruct (bin_transform b' Y) as [? ?] eqn:H. cbn in E. subst. destruct (bin_transform b' Y') as [? ?] eqn:H'. cbn in E'. subst.
  destruct (transform_columns _ _ _ _ _ _ TT TY F H) as [(S1 & S2 & S3) C].
  destruct (transform_columns _ _ _ _ _ _ TT TY' F H') as [(S1' & S2' & S3') C'].
  assert (NX : NoDup (labels Xt)) by (rewrite S3; apply TY). assert (NX' : NoDup (labels Xt')) by (rewrite S3'; apply TY').
  apply get_in in G. apply get_in in G'.
  assert (I : In c (labels Y)) by (rewrite <- S3; change c with (fst (c, x)); apply in_map; exact G).
  assert (I' : In c (labels Y')) by (rewrite <- S3'; change c with (fst (c, x')); apply in_map; exact G').
  apply in_map_iff in I. destruct I as ([d x0] & E1 & I). cbn in E1. subst d.
  apply in_map_iff in I'. destruct I' as ([d x0'] & E1 & I'). cbn in E1. subst d.
  specialize (A c x0 x0' I I'). destruct (C c x0 I) as [C1 C2]. destruct (C' c x0' I') as [C1' C2'].
  destruct (learned_or_not b T b' c TT F) as [(p & f & g & L & Hg)|No].
  - destruct (C1 p f L) as (y & Y1 & Y2). destruct (C1' p f L) as (y' & Y1' & Y2').
    rewrite Hg in Y2, Y2'. injection Y2 as <-. injection Y2' as <-.
    apply (get_of_in _ _ _ NX) in Y1, G. apply (get_of_in _ _ _ NX') in Y1', G'.
    assert (x = map g x0) by congruence. assert (x' = map g x0') by congruence. subst.
    assert (L1 : (i < List.length x0)%nat) by (rewrite (proj2 TY c x0 I); exact Hi).
    assert (L2 : (j < List.length x0')%nat) by (rewrite (proj2 TY' c x0' I'); exact Hj).
    rewrite (nth_indep _ NaN (g NaN)) by (rewrite map_length; exact L1). rewrite map_nth.
    rewrite (nth_indep (map g x0') NaN (g NaN)) by (rewrite map_length; exact L2). rewrite map_nth.
    destruct A as [->|(p' & f' & L' & S)]; [reflexivity|].
    destruct (learned_unique _ _ _ _ _ _ _ (proj1 TT) L L') as [<- <-]. rewrite !Hg in S. injection S as S. exact S.
  - pose proof (get_of_in _ _ _ NX (C2 No)) as Q. pose proof (get_of_in _ _ _ NX' (C2' No)) as Q'.
    apply (get_of_in _ _ _ NX) in G. apply (get_of_in _ _ _ NX') in G'.
    assert (x = x0) by congruence. assert (x' = x0') by congruence. subst.
    destruct A as [A|(p' & f' & L' & S)]; [exact A|]. exfalso. destruct L' as (t & ws & _ & FC & _). exact (No _ FC).
Qed.

Section Rows.
Variable gamma_median : R -> R.
Variable beta_ppf : R -> R -> R -> R.
Variable erfinv : R -> R.
Variable bad : R.
Variable k : kind.
Variable weight prior : option label.
Variable cfg : settings.
Variable rate : nat -> nat -> R.
Variable accepted : list target -> bool.
Variable style : list label -> group.
Notation run := (pipe_fit gamma_median beta_ppf erfinv bad k weight prior cfg rate accepted style).
Notation ask := (pipe_predict k weight prior).

Lemma pipe_trained fuel P T y P1 : run fuel P T y = (None, P1) -> bin_fit (l_binner P) T = FOk (l_binner P1).
Proof.
  unfold pipe_fit. destruct (bin_fit (l_binner P) T) as [b|]; [|discriminate]. cbv zeta.
  destruct (fst (bin_transform b T)); [|discriminate]. destruct (train_targets _ _ _ _); [|discriminate].
  destruct (fit_object _ _ _ _ _ _ _ _ _ _ _ _ _) as [[e|] o]; [discriminate|]. intro E. injection E as <-. reflexivity.
Qed.

Lemma priors_length Xt T : table Xt -> predict_targets prior Xt = Some T -> List.length T = List.length (fr_index Xt).
Proof.
  intros HT. unfold predict_targets, read_priors. destruct prior as [c|].
  - destruct (get_column (fr_cols Xt) c) as [v|] eqn:G; [|discriminate]. intro E. injection E as <-. rewrite !map_length.
    apply (proj2 HT c v). apply get_in. exact G.
  - intro E. injection E as <-. rewrite !map_length. reflexivity.
Qed.
Lemma binned_table b T b' Y Xt : table T -> table Y -> bin_fit b T = FOk b' -> fst (bin_transform b' Y) = FOk Xt -> table Xt /\ fr_index Xt = fr_index Y.
Proof.
  intros TT TY F E. destruct (bin_transform b' Y) as [? ?] eqn:H. cbn in E. subst.
  destruct (transform_columns _ _ _ _ _ _ TT TY F H) as [(S1 & S2 & S3) C]. split; [|exact S2].
  assert (NX : NoDup (labels Xt)) by (rewrite S3; apply TY). split; [exact NX|].
  intros c v I. rewrite S2. assert (I0 : In c (labels Y)) by (rewrite <- S3; change c with (fst (c, v)); apply in_map; exact I).
  apply in_map_iff in I0. destruct I0 as ([d x0] & E1 & I0). cbn in E1. subst d. destruct (C c x0 I0) as [C1 C2].
  rewrite <- (proj2 TY c x0 I0). apply (get_of_in _ _ _ NX) in I.
  destruct (learned_or_not b T b' c TT F) as [(p & q & g & L & Hg)|No].
  - destruct (C1 _ _ L) as (y & Y1 & Y2). rewrite Hg in Y2. injection Y2 as <-. apply (get_of_in _ _ _ NX) in Y1. assert (v = map g x0) by congruence. subst. apply map_length.
  - pose proof (get_of_in _ _ _ NX (C2 No)). congruence.
Qed.

Lemma pipe_same_row fuel P T y P1 : table T -> run fuel P T y = (None, P1) ->
  forall Y r Y' r' i j, table Y -> table Y' -> ask P1 Y = Some r -> ask P1 Y' = Some r' ->
  (i < List.length (fr_index Y))%nat -> (j < List.length (fr_index Y'))%nat ->
  rows_agree (fun c v v' => v = v' \/ same_bin (l_binner P) T c v v') Y i Y' j ->
  List.length r = List.length (fr_index Y) /\ nth_error r i = nth_error r' j.
Proof.
  intros TT F Y r Y' r' i j TY TY' A A' Hi Hj S. apply pipe_trained in F.
  unfold pipe_predict in A, A'.
  destruct (fst (bin_transform (l_binner P1) Y)) as [Xt|] eqn:E; [|discriminate].
  destruct (fst (bin_transform (l_binner P1) Y')) as [Xt'|] eqn:E'; [|discriminate].
  pose proof (binned_cell _ _ _ _ _ _ _ _ _ TT TY TY' F E E' Hi Hj S) as Cell.
  destruct (binned_table _ _ _ _ _ TT TY F E) as [TX SX]. destruct (binned_table _ _ _ _ _ TT TY' F E') as [TX' SX'].
  destruct (predict_targets prior Xt) as [t|] eqn:Pt; [|discriminate]. destruct (predict_targets prior Xt') as [t'|] eqn:Pt'; [|discriminate].
  pose proof (priors_length _ _ TX Pt) as Lt. pose proof (priors_length _ _ TX' Pt') as Lt'. rewrite SX in Lt. rewrite SX' in Lt'.
  destruct (b_groups (l_object P1)) as [gl|] eqn:G; [|unfold predict_frame in A; rewrite G in A; discriminate].
  destruct (frame_row _ _ _ _ _ _ G A) as (s & columns & B1 & B2 & B3 & B4).
  destruct (frame_row _ _ _ _ _ _ G A') as (s' & columns' & B1' & B2' & B3' & B4').
  cbn [d_targets d_cols] in *. split; [congruence|].
  destruct (B4 i) as (ti & T1 & T2); [lia|]. destruct (B4' j) as (tj & T1' & T2'); [lia|]. rewrite T2, T2'.
  assert (s' = s) by congruence. subst s'. f_equal. f_equal. f_equal.
  - destruct (has_prior prior) eqn:Hp; [|reflexivity].
    assert (V : v_prior ti = v_prior tj).
    { unfold has_prior in Hp. unfold predict_targets, read_priors in Pt, Pt'. destruct prior as [c|]; [|discriminate].
      destruct (get_column (fr_cols Xt) c) as [v|] eqn:Gv; [|discriminate]. destruct (get_column (fr_cols Xt') c) as [v'|] eqn:Gv'; [|discriminate].
      injection Pt as <-. injection Pt' as <-. specialize (Cell c v v' Gv Gv').
      rewrite !map_length in Lt, Lt'.
      rewrite map_map, nth_error_map in T1, T1'.
      destruct (nth_error v i) as [vi|] eqn:N1; [|discriminate]. destruct (nth_error v' j) as [vj|] eqn:N2; [|discriminate].
      cbn in T1, T1'. injection T1 as <-. injection T1' as <-. cbn [v_prior].
      rewrite (nth_error_nth _ _ NaN N1), (nth_error_nth _ _ NaN N2) in Cell. rewrite Cell. reflexivity. }
    rewrite V. reflexivity.
  - apply group_sum_row. intro n. apply (read_groups_same (feature_columns weight prior Xt) (feature_columns weight prior Xt') i j gl); auto.
    intros c x x' Q Q'. unfold feature_columns in Q, Q'.
    rewrite (get_filter (fun d => negb (excluded prior d) && negb (excluded weight d))) in Q, Q'.
    destruct (negb (excluded prior c) && negb (excluded weight c)); [|discriminate]. apply (Cell c); auto.
Qed.
Lemma pipe_row fuel P T y P1 : table T -> run fuel P T y = (None, P1) ->
  forall Y r Y' r' i j, table Y -> table Y' -> ask P1 Y = Some r -> ask P1 Y' = Some r' ->
  (i < List.length (fr_index Y))%nat -> (j < List.length (fr_index Y'))%nat ->
  rows_agree (fun _ v v' => v = v') Y i Y' j ->
  List.length r = List.length (fr_index Y) /\ nth_error r i = nth_error r' j.
Proof.
  intros TT F Y r Y' r' i j TY TY' A A' Hi Hj S. apply (pipe_same_row fuel P T y P1 TT F Y r Y' r' i j); auto.
  intros c x x' Hx Hx'. left. exact (S c x x' Hx Hx').
Qed.
End Rows.
