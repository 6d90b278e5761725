(** Whole pipelines trained on shuffled rows. *)
From Coq Require Import ZArith NArith QArith Qreals List Bool Reals String Lia Lqa Permutation FunctionalExtensionality.
From Verif.Proofs Require Import FlagFacts EcdfFacts TransformFacts EquivFacts FrameFacts OrderFacts RefitFacts PipeFacts PipeRuns PipeRows.
From Verif.Model Require Import Num BinarySearch Flags Ecdf BinTransform Frames LexBins Train Predict Link Estimators WholeFit Refit Pipe.
From Verif.Spec Require Import SearchSpec BinningSpec FrameSpec PipeSpec DataSpec RefitSpec ShuffleSpec.
Import ListNotations.

(** ** Shuffled lists *)
Lemma take_perm {A} idx (d : A) l : order_of_rows (List.length l) idx -> Permutation (take idx d l) l.
Proof.
  intro P. unfold take. rewrite (Permutation_map (fun i => nth i l d) P).
  assert (E : map (fun i => nth i l d) (seq 0 (List.length l)) = l); [|rewrite E; apply Permutation_refl].
  apply nth_ext with (d := d) (d' := d); [rewrite map_length, seq_length; reflexivity|].
  intros n H. rewrite map_length, seq_length in H. rewrite (nth_indep _ d (nth 0 l d)) by (rewrite map_length, seq_length; exact H).
  rewrite (map_nth (fun i => nth i l d) (seq 0 (List.length l)) 0%nat n). rewrite seq_nth by exact H. reflexivity.
Qed.
Lemma order_bound n idx : order_of_rows n idx -> forall i, In i idx -> (i < n)%nat.
Proof. intros P i H. apply (Permutation_in _ P) in H. apply in_seq in H. lia. Qed.
Lemma order_length n idx : order_of_rows n idx -> List.length idx = n.
Proof. intro P. rewrite (Permutation_length P). apply seq_length. Qed.
Lemma take_length {A} idx (d : A) l : List.length (take idx d l) = List.length idx.
Proof. apply map_length. Qed.
Lemma take_nth {A} idx (d : A) l j : (j < List.length idx)%nat -> nth j (take idx d l) d = nth (nth j idx 0%nat) l d.
Proof. intro H. unfold take. rewrite (nth_indep _ d (nth 0 l d)) by (rewrite map_length; exact H). apply (map_nth (fun i => nth i l d)). Qed.
Lemma take_map2 {A B C} (f : A -> B -> C) idx a b c l l' : List.length l = List.length l' -> (forall i, In i idx -> (i < List.length l)%nat) ->
  take idx c (map2 f l l') = map2 f (take idx a l) (take idx b l').
Proof.
  intros L. unfold take. induction idx as [|i r IH]; intro H; [reflexivity|]. cbn [map map2]. f_equal.
  - assert (Hi : (i < List.length l)%nat) by (apply H; left; reflexivity). clear -L Hi.
    revert l' i L Hi. induction l as [|x l IH]; intros [|y l'] i L Hi; cbn in L, Hi; try lia; try discriminate.
    destruct i; cbn [nth map2]; [reflexivity|]. apply IH; lia.
  - apply IH. intros j Hj. apply H. right. exact Hj.
Qed.

(** ** Learned binnings that bin alike *)
Definition alike (l l' : list (label * fit_result)) : Prop :=
  Forall2 (fun a a' => fst a = fst a' /\ fit_eqv (snd a) (snd a')) l l'.
Definition outcome_alike (r r' : fresult (list (label * fit_result))) : Prop :=
  match r, r' with
  | FOk l, FOk l' => alike l l'
  | FErr e, FErr e' => e = e'
  | _, _ => False
  end.
Lemma combine_ones {A} (x : list A) (X : frame) : List.length x = List.length (fr_index X) -> combine x (ones X) = map (fun v => (v, 1%Q)) x.
Proof.
  unfold ones. generalize (fr_index X). induction x as [|v r IH]; intros [|i l] H; cbn in *; try discriminate; auto. rewrite IH by lia. reflexivity.
Qed.
Lemma column_alike p n eps tol x X idx : order_of_rows (List.length (fr_index X)) idx -> List.length x = List.length (fr_index X) ->
  fit_eqv (fit_column p n eps tol (combine x (ones X))) (fit_column p n eps tol (combine (take idx NaN x) (ones (take_rows idx X)))).
Proof.
  intros O L. assert (P : Permutation (combine x (ones X)) (combine (take idx NaN x) (ones (take_rows idx X)))).
  { rewrite combine_ones by exact L. rewrite combine_ones by (cbn [fr_index take_rows]; rewrite !take_length; reflexivity).
    apply Permutation_map, Permutation_sym, take_perm. rewrite L. exact O. }
  apply fit_same_distribution.
  - apply positive_no_zero, ones_positive.
  - apply positive_no_zero, ones_positive.
  - intro Q. apply weight_where_perm; auto.
  - intro v. split; apply perm_occurs; auto. apply Permutation_sym; auto.
Qed.
Lemma loop_alike b X idx cols : order_of_rows (List.length (fr_index X)) idx -> table X ->
  outcome_alike (fit_loop b X (ones X) cols) (fit_loop b (take_rows idx X) (ones (take_rows idx X)) cols).
Proof.
  intros O TX. induction cols as [|c r IH]; [constructor|]. cbn [fit_loop]. rewrite take_get.
  destruct (get_column (fr_cols X) c) as [x|] eqn:G; [|reflexivity].
  destruct (binning_feature_property (b_props b) c) as [|p|e]; [exact IH| |reflexivity].
  assert (L : List.length x = List.length (fr_index X)) by (apply (proj2 TX c x), get_in; exact G).
  pose proof (column_alike p (b_bins b c) (b_eps b) (b_tol b) x X idx O L) as E.
  destruct E as [e|e e' bb bb' cc cc' He Hb Hc| | |]; try reflexivity;
    destruct (fit_loop b X (ones X) r) as [l|er], (fit_loop b (take_rows idx X) (ones (take_rows idx X)) r) as [l'|er']; cbn in IH |- *; try contradiction; auto;
    (constructor; [split; [reflexivity|]; cbn [snd]; constructor; auto|exact IH]).
Qed.
Lemma take_empty idx X : order_of_rows (List.length (fr_index X)) idx -> frame_empty (take_rows idx X) = frame_empty X.
Proof.
  intro O. apply order_length in O. unfold frame_empty. cbn [fr_index fr_cols take_rows]. f_equal.
  - destruct (fr_index X), idx; cbn in O |- *; try discriminate; reflexivity.
  - destruct (fr_cols X); reflexivity.
Qed.

Definition binner_alike (b b' : binner) : Prop :=
  b_props b' = b_props b /\ b_weight b' = b_weight b /\ b_inplace b' = b_inplace b /\
  exists l l', b_fitted b = Some l /\ b_fitted b' = Some l' /\ alike l l'.
Lemma bin_fit_alike b X idx : b_weight b = None -> order_of_rows (List.length (fr_index X)) idx -> table X ->
  match bin_fit b X, bin_fit b (take_rows idx X) with
  | FOk b1, FOk b2 => binner_alike b1 b2
  | FErr e, FErr e' => e = e'
  | _, _ => False
  end.
Proof.
  intros W O TX. unfold bin_fit. rewrite take_empty by exact O. destruct (frame_empty X); [reflexivity|]. rewrite W. cbn [frame_weights].
  unfold feature_labels. rewrite take_labels. pose proof (loop_alike b X idx (filter (fun c => negb (excluded None c)) (labels X)) O TX) as H.
  unfold ones in H. destruct (fit_loop b X _ _) as [l|], (fit_loop b (take_rows idx X) _ _) as [l'|]; cbn in H; try contradiction; auto.
  split; [reflexivity|]. split; [reflexivity|]. split; [reflexivity|]. exists l, l'. auto.
Qed.
Lemma alike_loop props l l' : alike l l' -> forall X, transform_loop props l X = transform_loop props l' X.
Proof.
  intro H. induction H as [|[c f] [c' f'] l l' [E1 E2] _ IH]; intro X; [reflexivity|]. cbn in E1, E2. subst c'. cbn [transform_loop].
  destruct (binning_feature_property props c); auto. destruct (get_column (fr_cols X) c); auto. rewrite (transform_comp _ f f' _ E2).
  destruct (transform_column _ f' _); auto.
Qed.
Lemma alike_transform b b' : binner_alike b b' -> forall X, bin_transform b' X = bin_transform b X.
Proof.
  intros (P & W & I & l & l' & F & F' & A) X. unfold bin_transform, check_input, fitted_of. rewrite F, F', P, W, I.
  rewrite (Forall2_len _ _ _ A). rewrite (alike_loop _ _ _ A X).
  assert (E : forallb (fun cf => has_label X (fst cf)) l = forallb (fun cf => has_label X (fst cf)) l').
  { clear -A. induction A as [|a a' l l' [E _] _ IH]; [reflexivity|]. cbn. rewrite E, IH. reflexivity. }
  rewrite E. reflexivity.
Qed.
Lemma shuffled_transform b X b1 idx : table X -> bin_fit b X = FOk b1 -> order_of_rows (List.length (fr_index X)) idx ->
  fst (bin_transform b1 (take_rows idx X)) = match fst (bin_transform b1 X) with FOk R => FOk (take_rows idx R) | FErr e => FErr e end.
Proof.
  intros TX F O. destruct (bin_transform b1 X) as [[R|e] X'] eqn:E; cbn [fst].
  - apply (transform_rows _ _ _ _ _ _ _ TX TX F E). apply order_bound. exact O.
  - pose proof F as F0. destruct (bin_fit_spec _ _ _ (proj1 TX) F) as (B1 & B2 & B3 & l & B4 & B5 & B6 & B7 & B8 & B9).
    unfold bin_transform in *. unfold check_input, feature_labels in *. rewrite take_labels.
    destruct (b_fitted b1) as [fits|] eqn:Ef; [|inversion E; reflexivity]. injection B4 as ->.
    destruct (Nat.eqb _ _); [|inversion E; reflexivity]. exfalso. rewrite B9 in E.
    destruct (transform_loop_ok (b_props b1) l X B5) as [Z LZ].
    { intros c f I. destruct (B7 c f I) as (K & p & P & L). exists p. rewrite B1. split; [exact P|]. split.
      - destruct L as (t & ws & L & _). change c with (fst (c, t)). apply in_map. exact L.
      - apply property_declares in P. destruct P as [_ P]. destruct L as (t & ws & _ & _ & _ & Ef'). apply (column_map p f K P). eauto 10. }
    unfold fitted_of in E. rewrite Ef, LZ in E. discriminate.
Qed.

(** ** What the estimator reads *)
Definition no_target : target := {| v_prior := None; v_y := 0; v_w := 0 |}.
Lemma finite_all_some l r : finite_all l = Some r <-> l = map Some r.
Proof.
  revert r. induction l as [|[x|] l IH]; intro r; cbn [finite_all].
  - split; [intro E; injection E as <-; reflexivity|]. destruct r; [reflexivity|discriminate].
  - destruct (finite_all l) as [xs|].
    + split; [intro E; injection E as <-; cbn; f_equal; apply IH; reflexivity|].
      destruct r as [|z r]; [discriminate|]. cbn. intro E. injection E as -> E. apply IH in E. congruence.
    + split; [discriminate|]. destruct r as [|z r]; [discriminate|]. cbn. intro E. injection E as -> E. apply IH in E. discriminate.
  - split; [discriminate|]. destruct r; discriminate.
Qed.
Lemma finite_all_none l : finite_all l = None <-> In None l.
Proof.
  induction l as [|[x|] l IH]; cbn [finite_all].
  - split; [discriminate|contradiction].
  - destruct (finite_all l).
    + split; [discriminate|]. intros [H|H]; [discriminate|]. apply IH in H. discriminate.
    + split; [|reflexivity]. intros _. right. apply IH. reflexivity.
  - split; [left; reflexivity|reflexivity].
Qed.
Lemma finite_all_taken idx l : order_of_rows (List.length l) idx ->
  finite_all (take idx None l) = match finite_all l with Some r => Some (take idx 0%R r) | None => None end.
Proof.
  intro O. destruct (finite_all l) as [r|] eqn:E.
  - apply finite_all_some in E. subst l. apply finite_all_some. rewrite map_length in O.
    apply (take_map Some idx 0%R None). apply order_bound. exact O.
  - apply finite_all_none in E. apply finite_all_none. eapply Permutation_in; [apply Permutation_sym, take_perm; exact O|exact E].
Qed.
Lemma taken_weights weight X idx : table X -> order_of_rows (List.length (fr_index X)) idx ->
  read_weights weight (take_rows idx X) = match read_weights weight X with Some r => Some (take idx 0%R r) | None => None end.
Proof.
  intros TX O. unfold read_weights. destruct weight as [c|].
  - rewrite take_get. destruct (get_column (fr_cols X) c) as [v|] eqn:G; [|reflexivity].
    assert (L : List.length v = List.length (fr_index X)) by (apply (proj2 TX c v), get_in; exact G).
    rewrite <- (take_map real_value idx NaN None) by (rewrite L; apply order_bound; exact O).
    apply finite_all_taken. rewrite map_length, L. exact O.
  - f_equal. cbn [fr_index take_rows]. rewrite (take_map (fun _ => 1%R) idx 0%Z 0%R) by (apply order_bound; exact O). reflexivity.
Qed.
Lemma taken_priors prior X idx : table X -> order_of_rows (List.length (fr_index X)) idx ->
  read_priors prior (take_rows idx X) = match read_priors prior X with Some r => Some (take idx None r) | None => None end.
Proof.
  intros TX O. unfold read_priors. destruct prior as [c|].
  - rewrite take_get. destruct (get_column (fr_cols X) c) as [v|] eqn:G; [|reflexivity].
    assert (L : List.length v = List.length (fr_index X)) by (apply (proj2 TX c v), get_in; exact G).
    rewrite <- (take_map real_value idx NaN None) by (rewrite L; apply order_bound; exact O). reflexivity.
  - f_equal. cbn [fr_index take_rows]. rewrite (take_map (fun _ => None) idx 0%Z None) by (apply order_bound; exact O). reflexivity.
Qed.
Lemma weights_length weight X w : table X -> read_weights weight X = Some w -> List.length w = List.length (fr_index X).
Proof.
  intros TX. unfold read_weights. destruct weight as [c|].
  - destruct (get_column (fr_cols X) c) as [v|] eqn:G; [|discriminate]. intro E. apply finite_all_some in E.
    apply (f_equal (@List.length _)) in E. rewrite !map_length in E. rewrite <- E. apply (proj2 TX c v), get_in. exact G.
  - intro E. injection E as <-. apply map_length.
Qed.
Lemma read_priors_length prior X p : table X -> read_priors prior X = Some p -> List.length p = List.length (fr_index X).
Proof.
  intros TX. unfold read_priors. destruct prior as [c|].
  - destruct (get_column (fr_cols X) c) as [v|] eqn:G; [|discriminate]. intro E. injection E as <-. rewrite map_length. apply (proj2 TX c v), get_in. exact G.
  - intro E. injection E as <-. apply map_length.
Qed.
Lemma map2_len {A B C} (f : A -> B -> C) l : forall l', List.length l = List.length l' -> List.length (map2 f l l') = List.length l.
Proof. induction l as [|x l IH]; intros [|y l'] H; cbn in *; try discriminate; auto. Qed.
Lemma taken_targets weight prior X y idx : table X -> order_of_rows (List.length (fr_index X)) idx -> List.length y = List.length (fr_index X) ->
  train_targets weight prior (take_rows idx X) (take idx 0%R y) =
    match train_targets weight prior X y with Some T => Some (take idx no_target T) | None => None end /\
  (forall T, train_targets weight prior X y = Some T -> List.length T = List.length (fr_index X)).
Proof.
  intros TX O L. unfold train_targets. rewrite taken_weights, taken_priors by auto.
  destruct (read_weights weight X) as [w|] eqn:W; [|split; [reflexivity|discriminate]].
  destruct (read_priors prior X) as [p|] eqn:P; [|split; [reflexivity|discriminate]].
  apply weights_length in W; auto. apply read_priors_length in P; auto.
  assert (B : forall i, In i idx -> (i < List.length (fr_index X))%nat) by (apply order_bound; exact O).
  assert (LP : List.length (map2 pair p w) = List.length p) by (apply map2_len; congruence).
  split.
  - f_equal. rewrite (take_map2 _ idx (None, 0%R) 0%R); [|congruence|rewrite LP, P; exact B]. f_equal.
    rewrite (take_map2 _ idx None 0%R); [reflexivity|congruence|rewrite P; exact B].
  - intros T E. injection E as <-. rewrite map2_len by congruence. congruence.
Qed.

Definition taken_columns (idx : list nat) (cols : list (label * list fnum)) : list (label * list fnum) :=
  map (fun cv => (fst cv, take idx NaN (snd cv))) cols.
Lemma taken_get idx cols c : get_column (taken_columns idx cols) c = match get_column cols c with Some v => Some (take idx NaN v) | None => None end.
Proof.
  unfold taken_columns. induction cols as [|[d v] r IH]; cbn [map fst snd get_column]; [reflexivity|]. destruct (label_eqb d c); auto.
Qed.
Lemma taken_features weight prior idx X : feature_columns weight prior (take_rows idx X) = taken_columns idx (feature_columns weight prior X).
Proof.
  unfold feature_columns, taken_columns, take_rows. cbn [fr_cols]. induction (fr_cols X) as [|[d v] r IH]; [reflexivity|]. cbn [map filter fst snd].
  destruct (_ && _); cbn [map fst snd]; rewrite IH; reflexivity.
Qed.
Lemma taken_read_columns idx cols names : read_columns (taken_columns idx cols) names =
  match read_columns cols names with Some v => Some (map (take idx NaN) v) | None => None end.
Proof.
  induction names as [|c r IH]; [reflexivity|]. cbn [read_columns]. rewrite taken_get, IH.
  destruct (get_column cols c); [|reflexivity]. destruct (read_columns cols r); reflexivity.
Qed.
Lemma taken_read_groups idx cols gl : read_groups (taken_columns idx cols) gl =
  match read_groups cols gl with Some v => Some (map (map (take idx NaN)) v) | None => None end.
Proof.
  induction gl as [|g r IH]; [reflexivity|]. cbn [read_groups]. rewrite taken_read_columns, IH.
  destruct (read_columns cols g); [|reflexivity]. destruct (read_groups cols r); reflexivity.
Qed.
Lemma read_columns_length cols names v : read_columns cols names = Some v -> List.length v = List.length names.
Proof.
  revert v. induction names as [|c r IH]; intros v E; cbn [read_columns] in E; [injection E as <-; reflexivity|].
  destruct (get_column cols c); [|discriminate]. destruct (read_columns cols r) as [w|]; [|discriminate]. injection E as <-. cbn. rewrite (IH w); auto.
Qed.
Lemma read_groups_nth cols gl v : read_groups cols gl = Some v -> forall i g, nth_error gl i = Some g -> List.length (nth i v []) = List.length g.
Proof.
  revert v. induction gl as [|h r IH]; intros v E i g H; [destruct i; discriminate|]. cbn [read_groups] in E.
  destruct (read_columns cols h) as [w|] eqn:Rc; [|discriminate]. destruct (read_groups cols r) as [ws|]; [|discriminate]. injection E as <-.
  destruct i; cbn in *; [injection H as <-; apply (read_columns_length _ _ _ Rc)|apply (IH ws); auto].
Qed.
Lemma rows_formed style cols gl columns T : one_dimension_each style -> read_groups cols gl = Some columns ->
  well_formed (map style gl) (data_rows columns T).
Proof.
  intros H R s i g I G. rewrite nth_error_map in G. destruct (nth_error gl i) as [names|] eqn:N; [|discriminate]. injection G as <-.
  rewrite H. apply In_nth_error in I. destruct I as [j I].
  assert (J : (j < List.length T)%nat) by (rewrite <- (rows_length columns T); apply nth_error_Some; congruence).
  destruct (nth_rows columns T j J) as (t & _ & B). rewrite B in I. injection I as <-. cbn [x_bins]. rewrite map_length.
  apply (read_groups_nth _ _ _ R _ _ N).
Qed.
Lemma taken_rows idx columns T : order_of_rows (List.length T) idx ->
  Permutation (data_rows columns T) (data_rows (map (map (take idx NaN)) columns) (take idx no_target T)).
Proof.
  intro O. set (s0 := {| x_bins := fun _ => []; x_prior := None; x_y := 0; x_w := 0 |} : WholeFit.sample).
  assert (E : data_rows (map (map (take idx NaN)) columns) (take idx no_target T) = take idx s0 (data_rows columns T)).
  { apply nth_ext with (d := s0) (d' := s0); [rewrite rows_length, !take_length; reflexivity|].
    intros j H. rewrite rows_length, take_length in H. rewrite take_nth by exact H.
    assert (B : (nth j idx 0 < List.length T)%nat) by (apply (order_bound _ _ O), nth_In; exact H).
    destruct (nth_rows columns T (nth j idx 0%nat) B) as (t & T1 & T2).
    destruct (nth_rows (map (map (take idx NaN)) columns) (take idx no_target T) j) as (t' & T1' & T2'); [rewrite take_length; exact H|].
    rewrite (nth_error_nth _ _ _ T2), (nth_error_nth _ _ _ T2').
    assert (t' = t). { apply (nth_error_nth _ _ no_target) in T1, T1'. rewrite take_nth in T1' by exact H. congruence. }
    subst t'. f_equal. apply functional_extensionality. intro i.
    change (@nil (list fnum)) with (map (take idx NaN) []) at 1. rewrite map_nth, map_map. apply map_ext. intro c. apply take_nth. exact H. }
  rewrite E. apply Permutation_sym, take_perm. rewrite rows_length. exact O.
Qed.

(** ** Training *)
Section Shuffle.
Variable gamma_median : R -> R.
Variable beta_ppf : R -> R -> R -> R.
Variable erfinv : R -> R.
Variable bad : R.
Variable k : kind.
Variable weight prior : option label.
Variable cfg : settings.
Variable rate : nat -> nat -> R.
Variable accepted : list target -> bool.
Variable style : list label -> group.
Notation fit pc := (fit_object gamma_median beta_ppf erfinv bad k pc cfg rate accepted style).
Notation run := (pipe_fit gamma_median beta_ppf erfinv bad k weight prior cfg rate accepted style).
Notation ask := (pipe_predict k weight prior).
Hypothesis alike_rows : treats_rows_alike accepted.
Hypothesis dims : one_dimension_each style.

Definition with_groups (o : object) (gl : list (list label)) : object :=
  {| b_groups := Some gl; b_weights := b_weights o; b_states := b_states o; b_bound := b_bound o; b_scale := b_scale o; b_offset := b_offset o;
     b_diverging := b_diverging o; b_isdiv := b_isdiv o; b_loss := b_loss o; b_initial := b_initial o; b_iter := b_iter o;
     b_importances := b_importances o; b_records := b_records o |}.
Lemma fit_default pc fuel o d gl : accepted (d_targets d) = true -> default_groups o (d_cols d) = gl ->
  fit pc fuel o d = fit pc fuel (with_groups o gl) d.
Proof.
  intros A E. unfold fit_object. rewrite A. cbn [negb]. cbv zeta.
  change (default_groups (init_weights o (d_targets d)) (d_cols d)) with (default_groups o (d_cols d)). rewrite E. reflexivity.
Qed.

Lemma fit_shuffled pc fuel o cols T idx : (pc = true -> forall a, k <> GBSRegressor a) -> order_of_rows (List.length T) idx ->
  let r := fit pc fuel o {| d_cols := cols; d_targets := T |} in
  let r' := fit pc fuel o {| d_cols := taken_columns idx cols; d_targets := take idx no_target T |} in
  fst r = fst r' /\ (fst r = None -> same_model k pc (snd r') (snd r)).
Proof.
  intros NG O. cbv zeta. assert (PT : Permutation T (take idx no_target T)) by (apply Permutation_sym, take_perm; exact O).
  destruct (accepted T) eqn:A.
  2:{ rewrite (fit_refused _ _ _ _ _ _ _ _ _ _ fuel o {| d_cols := cols; d_targets := T |}) by exact A.
      rewrite fit_refused by (cbn [d_targets]; rewrite <- (alike_rows _ _ PT); exact A). split; [reflexivity|discriminate]. }
  assert (A' : accepted (take idx no_target T) = true) by (rewrite <- (alike_rows _ _ PT); exact A).
  set (gl := default_groups o cols).
  assert (Egl : default_groups o (taken_columns idx cols) = gl).
  { unfold gl, default_groups, taken_columns. destruct (b_groups o); [reflexivity|]. rewrite !map_map. cbn [fst]. reflexivity. }
  rewrite (fit_default pc fuel o {| d_cols := cols; d_targets := T |} gl A eq_refl).
  rewrite (fit_default pc fuel o {| d_cols := taken_columns idx cols; d_targets := take idx no_target T |} gl A' Egl).
  set (o' := with_groups o gl). assert (G : b_groups o' = Some gl) by reflexivity.
  assert (EG : read_groups (d_cols {| d_cols := taken_columns idx cols; d_targets := take idx no_target T |}) gl =
    match read_groups (d_cols {| d_cols := cols; d_targets := T |}) gl with Some v => Some (map (map (take idx NaN)) v) | None => None end).
  { cbn [d_cols]. apply taken_read_groups. }
  destruct (read_groups (d_cols {| d_cols := cols; d_targets := T |}) gl) as [columns|] eqn:Rd.
  2:{ rewrite (fit_no_column _ _ _ _ _ _ _ _ _ _ fuel o' gl _ G A Rd), (fit_no_column _ _ _ _ _ _ _ _ _ _ fuel o' gl {| d_cols := taken_columns idx cols; d_targets := take idx no_target T |} G A' EG). cbn [d_targets].
      assert (EK : kind_scale k (map v_y T) (map v_w T) = kind_scale k (map v_y (take idx no_target T)) (map v_w (take idx no_target T))).
      { rewrite <- (rows_y [] T), <- (rows_w [] T), <- (rows_y (map (map (take idx NaN)) []) (take idx no_target T)), <- (rows_w (map (map (take idx NaN)) []) (take idx no_target T)).
        pose proof (taken_rows idx [] T O) as PD. apply scale_same. intros h _. apply sum_perm. exact PD. }
      rewrite EK. split; [reflexivity|]. clear EK. intro E. exfalso. destruct (kind_scale k _ _); discriminate E. }
  pose proof (fit_is_whole gamma_median beta_ppf erfinv bad k pc cfg rate accepted style NG fuel o' gl {| d_cols := cols; d_targets := T |} columns G A Rd) as H1.
  pose proof (fit_is_whole gamma_median beta_ppf erfinv bad k pc cfg rate accepted style NG fuel o' gl {| d_cols := taken_columns idx cols; d_targets := take idx no_target T |} _ G A' EG) as H2.
  cbn [d_targets] in H1, H2.
  rewrite <- (order_irrelevant _ _ _ _ _ _ (map style gl) cfg rate fuel _ _ (rows_formed style _ gl columns T dims Rd) (taken_rows idx columns T O)) in H2.
  destruct (whole_fit _ _ _ _ _ _ _ _ _ _ _) ; try (rewrite H1, H2; split; [reflexivity|discriminate]).
  destruct H1 as (F1 & G1 & S1 & I1 & L1 & P1 & M1). destruct H2 as (F2 & G2 & S2 & I2 & L2 & P2 & M2). rewrite F1, F2. split; [reflexivity|]. intros _.
  split; [congruence|]. split; [congruence|]. split; [congruence|]. split; [congruence|].
  cbv zeta in *. apply predict_same; [exact NG|congruence|congruence|intro Hp; rewrite P1, P2 by exact Hp; reflexivity|congruence].
Qed.

Variable bins : label -> Z.
Variable props : option (label -> option N).
Variable inplace : bool.

Lemma pipe_shuffled fuel o X y idx e P1 e' P1' : (has_prior prior = true -> forall a, k <> GBSRegressor a) ->
  table X -> List.length y = List.length (fr_index X) -> order_of_rows (List.length (fr_index X)) idx ->
  run fuel {| l_binner := pipeline_binner bins props inplace; l_object := o |} X y = (e, P1) ->
  run fuel {| l_binner := pipeline_binner bins props inplace; l_object := o |} (take_rows idx X) (take idx 0%R y) = (e', P1') ->
  e = e' /\ (e = None -> same_model k (has_prior prior) (l_object P1') (l_object P1) /\ forall Y, ask P1' Y = ask P1 Y).
Proof.
  intros NG TX L O E1 E2. unfold pipe_fit in E1, E2. cbn [l_binner l_object] in E1, E2.
  pose proof (bin_fit_alike (pipeline_binner bins props inplace) X idx eq_refl O TX) as B.
  destruct (bin_fit _ X) as [b1|er] eqn:F, (bin_fit _ (take_rows idx X)) as [b2|er']; try contradiction.
  2:{ injection E1 as <- <-. injection E2 as <- <-. subst er'. split; [reflexivity|discriminate]. }
  cbv zeta in E1, E2. rewrite (alike_transform _ _ B) in E2. rewrite (shuffled_transform _ _ _ _ TX F O) in E2.
  destruct (fst (bin_transform b1 X)) as [Xt|er] eqn:Et.
  2:{ injection E1 as <- <-. injection E2 as <- <-. split; [reflexivity|discriminate]. }
  destruct (binned_table _ _ _ _ _ TX TX F Et) as [TXt EI]. rewrite <- EI in L, O.
  destruct (taken_targets weight prior Xt y idx TXt O L) as [ET LT]. rewrite ET in E2.
  destruct (train_targets weight prior Xt y) as [T|].
  2:{ injection E1 as <- <-. injection E2 as <- <-. split; [reflexivity|discriminate]. }
  rewrite taken_features in E2. rewrite <- (LT T eq_refl) in O.
  destruct (fit_shuffled (has_prior prior) fuel o (feature_columns weight prior Xt) T idx NG O) as [H1 H2].
  destruct (fit_object _ _ _ _ _ _ _ _ _ _ fuel o {| d_cols := feature_columns weight prior Xt; d_targets := T |}) as [[er|] o1];
    destruct (fit_object _ _ _ _ _ _ _ _ _ _ fuel o {| d_cols := taken_columns idx _; d_targets := _ |}) as [[er'|] o2]; cbn [fst snd] in H1, H2; try discriminate.
  - injection E1 as <- <-. injection E2 as <- <-. injection H1 as ->. split; [reflexivity|discriminate].
  - injection E1 as <- <-. injection E2 as <- <-. split; [reflexivity|]. intros _. specialize (H2 eq_refl). split; [exact H2|].
    intro Y. unfold pipe_predict. cbn [l_binner l_object]. rewrite (alike_transform _ _ B).
    destruct (fst (bin_transform b1 Y)) as [Yt|]; [|reflexivity]. destruct (predict_targets prior Yt); [|reflexivity]. apply H2.
Qed.
End Shuffle.
