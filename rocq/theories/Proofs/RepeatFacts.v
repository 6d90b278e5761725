(** Whole pipelines trained on rows with whole-numbered weights, and on the rows written
    out. *)
From Coq Require Import ZArith NArith QArith Qreals List Bool Reals Lra Lia Permutation FunctionalExtensionality.
From Verif.Proofs Require Import FlagFacts EcdfFacts FitFacts TransformFacts EquivFacts FrameFacts OrderFacts RefitFacts PipeFacts PipeRuns PipeRows ShuffleFacts RecodePipe.
From Verif.Model Require Import Num BinarySearch Flags Ecdf BinTransform Frames LexBins Train Predict Link Estimators WholeFit Refit Pipe.
From Verif.Spec Require Import SearchSpec BinningSpec FrameSpec PipeSpec DataSpec RefitSpec ShuffleSpec RepeatSpec.
Import ListNotations.

Notation cnt idx i := (count_occ Nat.eq_dec idx i).

(** *** Lists of rows. *)
Lemma count_repeat a x m : count_occ Nat.eq_dec (repeat a m) x = if Nat.eq_dec a x then m else 0%nat.
Proof.
  induction m as [|m IH]; cbn [repeat count_occ]; [destruct (Nat.eq_dec a x); reflexivity|].
  destruct (Nat.eq_dec a x); rewrite IH; reflexivity.
Qed.
Lemma count_copies (f : nat -> nat) l x : NoDup l ->
  cnt (flat_map (fun i => repeat i (f i)) l) x = if in_dec Nat.eq_dec x l then f x else 0%nat.
Proof.
  induction l as [|a l IH]; intro ND; [reflexivity|]. apply NoDup_cons_iff in ND. destruct ND as [N1 N2].
  cbn [flat_map]. rewrite count_occ_app, count_repeat, (IH N2).
  destruct (Nat.eq_dec a x) as [->|E]; destruct (in_dec Nat.eq_dec x l) as [I|I]; destruct (in_dec Nat.eq_dec x (_ :: l)) as [J|J]; cbn [In] in J; try lia; exfalso; tauto.
Qed.
Lemma written_perm n idx : every_row_listed n idx -> Permutation idx (flat_map (fun i => repeat i (cnt idx i)) (seq 0 n)).
Proof.
  intros [B _]. apply (Permutation_count_occ Nat.eq_dec). intro x. rewrite count_copies by apply seq_NoDup.
  destruct (in_dec Nat.eq_dec x (seq 0 n)) as [I|I]; [reflexivity|]. apply count_occ_not_In. intro J. apply I. apply in_seq. specialize (B x J). lia.
Qed.
Lemma cnt_pos n idx i : every_row_listed n idx -> (i < n)%nat -> exists m, cnt idx i = S m.
Proof.
  intros [_ B] L. pose proof (proj1 (count_occ_In Nat.eq_dec idx i) (B i L)) as H. destruct (cnt idx i) as [|m]; [lia|eauto].
Qed.
Lemma take_in {A} n idx (d : A) l : every_row_listed n idx -> length l = n -> forall v, In v (take idx d l) <-> In v l.
Proof.
  intros [B1 B2] L v. unfold take. rewrite in_map_iff. split.
  - intros (i & <- & I). apply nth_In. rewrite L. auto.
  - intro I. apply (In_nth _ _ d) in I. destruct I as (i & Hi & <-). exists i. split; [reflexivity|]. apply B2. lia.
Qed.

(** *** Columns binned as categories. *)
Definition same_cells (f f' : fit_result) : Prop :=
  fit_ok f /\ fit_ok f' /\ forall q xs, transform_column q f xs = transform_column q f' xs.
Lemma combine_fst {A B} (x : list A) (w : list B) : length x = length w -> map fst (combine x w) = x.
Proof. revert w. induction x as [|a x IH]; intros [|b w] L; cbn in *; try discriminate; auto. f_equal. apply IH. lia. Qed.
Lemma full_cdf zw : no_zero_group zw -> length (cdf_values zw) = length (z_unique zw).
Proof.
  intro H. unfold cdf_values, cumsum. rewrite map_length, cumsum_from_length, (group_weights_full zw H), map_length. reflexivity.
Qed.
Lemma category_cells p n eps tol zw zw' : is_ordered_set p || is_unordered_set p = true -> no_zero_group zw -> no_zero_group zw' ->
  (forall v, occurs v (map fst zw) <-> occurs v (map fst zw')) ->
  same_cells (fit_column p n eps tol zw) (fit_column p n eps tol zw').
Proof.
  intros K Z Z' Oc.
  assert (F : Forall2 feqv (z_unique zw) (z_unique zw')).
  { assert (F : Forall2 (fun a b => feq a b = true) (z_unique zw) (z_unique zw')).
    { apply sorted_same_values; try apply z_unique_sorted. intro v. rewrite !z_unique_occurs. apply Oc. }
    clear -F. induction F; constructor; auto. apply feq_feqv; auto. }
  pose proof (full_cdf zw Z) as L. pose proof (full_cdf zw' Z') as L'. unfold fit_column. rewrite K.
  destruct F as [|b0 b0' bs bs' Hb F]; [repeat split|].
  destruct (cdf_values zw) as [|c0 cs]; [discriminate|]. destruct (cdf_values zw') as [|c0' cs']; [discriminate|].
  cbn [length] in *. rewrite L, L', !Nat.eqb_refl.
  assert (F2 : Forall2 feqv (b0 :: b0 :: bs) (b0' :: b0' :: bs')) by (repeat constructor; auto).
  split; [exact I|]. split; [exact I|]. intros q xs.
  transitivity (transform_column q (Fitted (fscale eps (minimal_difference (b0 :: b0 :: bs))) (b0 :: b0 :: bs) []) xs); [reflexivity|].
  transitivity (transform_column q (Fitted (fscale eps (minimal_difference (b0' :: b0' :: bs'))) (b0' :: b0' :: bs') []) xs); [|reflexivity].
  apply transform_comp. constructor; auto. apply fscale_comp, minimal_difference_comp; auto.
Qed.
Lemma column_cells p n eps tol x X idx : check_flags_consistency p = FlagsOk -> is_continuous_set p = false ->
  every_row_listed (length (fr_index X)) idx -> length x = length (fr_index X) ->
  same_cells (fit_column p n eps tol (combine x (ones X))) (fit_column p n eps tol (combine (take idx NaN x) (ones (take_rows idx X)))).
Proof.
  intros Hc Hk O L. apply category_cells.
  - rewrite (consistent_kind _ Hc) in Hk. destruct (_ || _); [reflexivity|discriminate].
  - apply positive_no_zero, ones_positive.
  - apply positive_no_zero, ones_positive.
  - intro v. rewrite !combine_fst; [|unfold ones; cbn [fr_index take_rows]; rewrite map_length, !take_length; reflexivity|unfold ones; rewrite map_length; exact L].
    split; intros (z & I & E); exists z; split; auto; apply (take_in _ _ NaN _ O L); exact I.
Qed.

(** *** Learned binnings with the same cells. *)
Definition alike_cells (l l' : list (label * fit_result)) : Prop :=
  Forall2 (fun a a' => fst a = fst a' /\ forall q xs, transform_column q (snd a) xs = transform_column q (snd a') xs) l l'.
Definition outcome_cells (r r' : fresult (list (label * fit_result))) : Prop :=
  match r, r' with
  | FOk l, FOk l' => alike_cells l l'
  | FErr e, FErr e' => e = e'
  | _, _ => False
  end.
Lemma loop_cells b w X idx cols : no_continuous_column (b_props b) -> undeclared (b_props b) (Some w) ->
  every_row_listed (length (fr_index X)) idx -> table X ->
  outcome_cells (fit_loop b X (ones X) cols) (fit_loop b (mapped w (fun _ => Fin 1) (take_rows idx X)) (ones (take_rows idx X)) cols).
Proof.
  intros NC U O TX. induction cols as [|c r IH]; [constructor|]. cbn [fit_loop]. rewrite mapped_get, take_get.
  destruct (get_column (fr_cols X) c) as [x|] eqn:G; [|destruct (label_eqb c w); reflexivity].
  assert (L : length x = length (fr_index X)) by (apply (proj2 TX c x), get_in; exact G).
  destruct (label_eqb c w) eqn:Ec; cbn [option_map].
  - apply label_eqb_iff in Ec. subst c. destruct (binning_feature_property (b_props b) w) as [|p|e] eqn:P; [exact IH| |reflexivity].
    exfalso. apply property_declares in P. exact (U w eq_refl p (proj1 P)).
  - destruct (binning_feature_property (b_props b) c) as [|p|e] eqn:P; [exact IH| |reflexivity].
    apply property_declares in P. destruct P as [D Hc].
    destruct (column_cells p (b_bins b c) (b_eps b) (b_tol b) x X idx Hc (NC c p D) O L) as (K1 & K2 & H).
    destruct (fit_column p (b_bins b c) (b_eps b) (b_tol b) (combine x (ones X))) as [e|e bb cc| | |]; try contradiction;
    destruct (fit_column p (b_bins b c) (b_eps b) (b_tol b) (combine (take idx NaN x) (ones (take_rows idx X)))) as [e'|e' bb' cc'| | |]; try contradiction;
    destruct (fit_loop b X (ones X) r) as [l|er], (fit_loop b (mapped w (fun _ => Fin 1) (take_rows idx X)) (ones (take_rows idx X)) r) as [l'|er']; cbn in IH |- *; try contradiction; auto;
    (constructor; [split; [reflexivity|exact H]|exact IH]).
Qed.
Definition binner_cells (b b' : binner) : Prop :=
  b_props b' = b_props b /\ b_weight b' = b_weight b /\ b_inplace b' = b_inplace b /\
  exists l l', b_fitted b = Some l /\ b_fitted b' = Some l' /\ alike_cells l l'.
Lemma cells_loop props l l' : alike_cells l l' -> forall X, transform_loop props l X = transform_loop props l' X.
Proof.
  intro H. induction H as [|[c f] [c' f'] l l' [E1 E2] _ IH]; intro X; [reflexivity|]. cbn in E1, E2. subst c'. cbn [transform_loop].
  destruct (binning_feature_property props c); auto. destruct (get_column (fr_cols X) c); auto. rewrite E2.
  destruct (transform_column _ f' _); auto.
Qed.
Lemma cells_transform b b' : binner_cells b b' -> forall X, bin_transform b' X = bin_transform b X.
Proof.
  intros (P & W & I & l & l' & F & F' & A) X. unfold bin_transform, check_input, fitted_of. rewrite F, F', P, W, I.
  rewrite (Forall2_len _ _ _ A). rewrite (cells_loop _ _ _ A X).
  assert (E : forallb (fun cf => has_label X (fst cf)) l = forallb (fun cf => has_label X (fst cf)) l').
  { clear -A. induction A as [|a a' l l' [E _] _ IH]; [reflexivity|]. cbn. rewrite E, IH. reflexivity. }
  rewrite E. reflexivity.
Qed.
Lemma listed_empty n idx (X : frame) : n = length (fr_index X) -> every_row_listed n idx -> frame_empty (take_rows idx X) = frame_empty X.
Proof.
  intros -> [B1 B2]. unfold frame_empty. cbn [fr_index fr_cols take_rows]. f_equal.
  - destruct (fr_index X) as [|a r], idx as [|i idx]; cbn [take map]; try reflexivity.
    + specialize (B1 i (or_introl eq_refl)). cbn in B1. lia.
    + specialize (B2 0%nat). cbn in B2. exfalso. apply B2. lia.
  - destruct (fr_cols X); reflexivity.
Qed.
Lemma bin_fit_cells b w X idx : b_weight b = None -> no_continuous_column (b_props b) -> undeclared (b_props b) (Some w) ->
  every_row_listed (length (fr_index X)) idx -> table X ->
  match bin_fit b X, bin_fit b (mapped w (fun _ => Fin 1) (take_rows idx X)) with
  | FOk b1, FOk b2 => binner_cells b1 b2
  | FErr e, FErr e' => e = e'
  | _, _ => False
  end.
Proof.
  intros W NC U O TX. unfold bin_fit. rewrite mapped_nil, (listed_empty _ _ _ eq_refl O). destruct (frame_empty X); [reflexivity|]. rewrite W. cbn [frame_weights].
  unfold feature_labels. rewrite mapped_labels, take_labels. pose proof (loop_cells b w X idx (filter (fun c => negb (excluded None c)) (labels X)) NC U O TX) as H.
  unfold ones in H. cbn [mapped fr_index]. destruct (fit_loop b X _ _) as [l|], (fit_loop b (mapped _ _ _) _ _) as [l'|]; cbn in H; try contradiction; auto.
  split; [reflexivity|]. split; [reflexivity|]. split; [reflexivity|]. exists l, l'. auto.
Qed.
Lemma listed_transform b w X b1 idx : table X -> bin_fit b X = FOk b1 -> undeclared (b_props b) (Some w) -> every_row_listed (length (fr_index X)) idx ->
  exists R, fst (bin_transform b1 X) = FOk R /\
  fst (bin_transform b1 (mapped w (fun _ => Fin 1) (take_rows idx X))) = FOk (mapped w (fun _ => Fin 1) (take_rows idx R)).
Proof.
  intros TX F U O. destruct (bin_fit_spec _ _ _ (proj1 TX) F) as (B1 & B2 & B3 & l & B4 & B5 & B6 & B7 & B8 & B9).
  assert (Nw : ~ In w (map fst l)).
  { intro I. apply B6 in I. destruct I as (p & _ & _ & D). exact (U w eq_refl p D). }
  destruct (transform_loop_ok (b_props b1) l X B5) as [Z LZ].
  { intros c f I. destruct (B7 c f I) as (K & p & P & L). exists p. rewrite B1. split; [exact P|]. split.
    - destruct L as (t & ws & L & _). change c with (fst (c, t)). apply in_map. exact L.
    - apply property_declares in P. destruct P as [_ P]. destruct L as (t & ws & _ & _ & _ & Ef'). apply (column_map p f K P). eauto 10. }
  assert (E : exists X', bin_transform b1 X = (FOk Z, X')).
  { unfold bin_transform, check_input, fitted_of. rewrite B4, B8, B1, B2, Nat.eqb_refl, B9. rewrite B1 in LZ. rewrite LZ. eauto. }
  destruct E as [X' E]. exists Z. split; [rewrite E; reflexivity|].
  pose proof (transform_rows _ _ _ _ _ _ idx TX TX F E (proj1 O)) as T.
  unfold bin_transform, check_input, fitted_of in T |- *. rewrite B4 in T |- *. unfold feature_labels in T |- *. rewrite mapped_labels.
  destruct (Nat.eqb _ _); [|discriminate]. rewrite mapped_nil. rewrite (listed_empty _ _ _ eq_refl O), B9 in T |- *.
  rewrite loop_other by exact Nw. destruct (transform_loop (b_props b1) l (take_rows idx X)) as [[e|] R]; cbn [fst snd] in T |- *; [discriminate|].
  injection T as ->. reflexivity.
Qed.

(** *** What the estimator reads. *)
Definition unit_weight (t : target) : target := {| v_prior := v_prior t; v_y := v_y t; v_w := 1 |}.
Lemma real_count m : real_value (Fin (inject_Z (Z.of_nat m))) = Some (INR m).
Proof. cbn. f_equal. unfold Q2R. cbn. rewrite INR_IZR_INZ. field. Qed.
Lemma listed_weights n idx : finite_all (map real_value (times_listed n idx)) = Some (map (fun i => INR (cnt idx i)) (seq 0 n)).
Proof. apply finite_all_some. unfold times_listed. rewrite !map_map. apply map_ext. intro i. apply real_count. Qed.
Lemma bounded_priors prior X idx : table X -> (forall i, In i idx -> (i < length (fr_index X))%nat) ->
  read_priors prior (take_rows idx X) = match read_priors prior X with Some r => Some (take idx None r) | None => None end.
Proof.
  intros TX O. unfold read_priors. destruct prior as [c|].
  - rewrite take_get. destruct (get_column (fr_cols X) c) as [v|] eqn:G; [|reflexivity].
    assert (L : length v = length (fr_index X)) by (apply (proj2 TX c v), get_in; exact G).
    rewrite <- (take_map real_value idx NaN None) by (rewrite L; exact O). reflexivity.
  - f_equal. cbn [fr_index take_rows]. rewrite (take_map (fun _ => None) idx 0%Z None) by exact O. reflexivity.
Qed.
Lemma map2_units (p : list (option R)) (w : list R) y : length p = length w ->
  map2 (fun pw t => {| v_prior := fst pw; v_y := t; v_w := snd pw |}) (map2 pair p (map (fun _ => 1%R) w)) y =
  map unit_weight (map2 (fun pw t => {| v_prior := fst pw; v_y := t; v_w := snd pw |}) (map2 pair p w) y).
Proof.
  revert w y. induction p as [|a p IH]; intros [|v w] y L; cbn in L; try discriminate; [reflexivity|].
  destruct y as [|z y]; [reflexivity|]. cbn [map map2]. rewrite <- IH by lia. reflexivity.
Qed.
Lemma targets_weights p w y : length p = length w -> length w = length y ->
  map v_w (map2 (fun pw t => {| v_prior := fst pw; v_y := t; v_w := snd pw |}) (map2 pair p w) y) = w.
Proof.
  revert w y. induction p as [|a p IH]; intros [|v w] [|z y] L L'; cbn in L, L'; try discriminate; [reflexivity|].
  cbn [map map2 v_w snd]. f_equal. apply IH; lia.
Qed.
Lemma listed_targets w prior X y idx : table X -> prior <> Some w -> every_row_listed (length (fr_index X)) idx -> length y = length (fr_index X) ->
  get_column (fr_cols X) w = Some (times_listed (length (fr_index X)) idx) ->
  train_targets (Some w) prior (mapped w (fun _ => Fin 1) (take_rows idx X)) (take idx 0%R y) =
    match train_targets (Some w) prior X y with Some T => Some (map unit_weight (take idx no_target T)) | None => None end /\
  (forall T, train_targets (Some w) prior X y = Some T ->
     length T = length (fr_index X) /\ map v_w T = map (fun i => INR (cnt idx i)) (seq 0 (length (fr_index X)))).
Proof.
  intros TX Np O L G. unfold train_targets. rewrite mapped_priors by exact Np. rewrite bounded_priors by (auto; apply (proj1 O)).
  set (n := length (fr_index X)) in *. unfold read_weights. rewrite mapped_get, label_eqb_refl, take_get, G. cbn [option_map].
  rewrite listed_weights. set (ws := map (fun i => INR (cnt idx i)) (seq 0 n)).
  assert (LW : length ws = n) by (unfold ws; rewrite map_length, seq_length; reflexivity).
  assert (E1 : finite_all (map real_value (map (fun _ => Fin 1) (take idx NaN (times_listed n idx)))) = Some (map (fun _ => 1%R) (take idx 0%R ws))).
  { apply finite_all_some. unfold take. rewrite !map_map. apply map_ext. intro i. cbn. f_equal. unfold Q2R. cbn. field. }
  rewrite E1. destruct (read_priors prior X) as [p|] eqn:P; [|split; [reflexivity|discriminate]].
  apply read_priors_length in P; auto. fold n in P.
  split.
  - f_equal. rewrite map2_units by (rewrite !take_length; reflexivity). f_equal.
    assert (LP : length (map2 pair p ws) = n) by (rewrite map2_len; congruence).
    rewrite (take_map2 _ idx (None, 0%R) 0%R) by (try congruence; rewrite LP; apply O). f_equal.
    rewrite (take_map2 _ idx None 0%R) by (try congruence; rewrite P; apply O). reflexivity.
  - intros T E. injection E as <-. split; [|apply targets_weights; congruence].
    rewrite map2_len by (rewrite map2_len; congruence). rewrite map2_len; congruence.
Qed.
Lemma mapped_excluded w h prior X : feature_columns (Some w) prior (mapped w h X) = feature_columns (Some w) prior X.
Proof.
  unfold feature_columns, mapped. cbn [fr_cols]. induction (fr_cols X) as [|[d v] r IH]; [reflexivity|]. cbn [map filter fst snd]. rewrite IH.
  destruct (label_eqb d w) eqn:E; [|reflexivity]. apply label_eqb_iff in E. subst d.
  assert (Ex : excluded (Some w) w = true) by (unfold excluded; rewrite ?label_eqb_refl; reflexivity). rewrite Ex, andb_false_r. reflexivity.
Qed.

(** *** The rows say the same. *)
Definition no_row : WholeFit.sample := {| x_bins := fun _ => []; x_prior := None; x_y := 0; x_w := 0 |}.
Lemma rows_taken idx columns T : (forall i, In i idx -> (i < length T)%nat) ->
  data_rows (map (map (take idx NaN)) columns) (take idx no_target T) = take idx no_row (data_rows columns T).
Proof.
  intro O. apply nth_ext with (d := no_row) (d' := no_row); [rewrite rows_length, !take_length; reflexivity|].
  intros j H. rewrite rows_length, take_length in H. rewrite take_nth by exact H.
  assert (B : (nth j idx 0 < length T)%nat) by (apply O, nth_In; exact H).
  destruct (nth_rows columns T (nth j idx 0%nat) B) as (t & T1 & T2).
  destruct (nth_rows (map (map (take idx NaN)) columns) (take idx no_target T) j) as (t' & T1' & T2'); [rewrite take_length; exact H|].
  rewrite (nth_error_nth _ _ _ T2), (nth_error_nth _ _ _ T2').
  assert (t' = t). { apply (nth_error_nth _ _ no_target) in T1, T1'. rewrite take_nth in T1' by exact H. congruence. }
  subst t'. f_equal. apply functional_extensionality. intro i.
  change (@nil (list fnum)) with (map (take idx NaN) []) at 1. rewrite map_nth, map_map. apply map_ext. intro c. apply take_nth. exact H.
Qed.
Lemma rows_unit columns T : data_rows columns (map unit_weight T) = map (fun s => with_weight s 1) (data_rows columns T).
Proof.
  unfold data_rows. rewrite map_length, map_map2. generalize (seq 0 (length T)).
  induction T as [|t T IH]; intros [|i l]; cbn [map map2]; try reflexivity. rewrite IH. reflexivity.
Qed.
Lemma map_flat {A B C} (g : B -> C) (f : A -> list B) l : map g (flat_map f l) = flat_map (fun a => map g (f a)) l.
Proof. induction l as [|a l IH]; [reflexivity|]. cbn [flat_map]. rewrite map_app, IH. reflexivity. Qed.
Lemma map_rep {A B} (g : A -> B) a m : map g (repeat a m) = repeat (g a) m.
Proof. induction m; cbn; congruence. Qed.
Lemma flat_map_in {A B} (f g : A -> list B) l : (forall a, In a l -> f a = g a) -> flat_map f l = flat_map g l.
Proof. induction l as [|a l IH]; intro H; [reflexivity|]. cbn. rewrite (H a) by (left; reflexivity). f_equal. apply IH. intros b Hb. apply H. right. exact Hb. Qed.
Lemma flat_map_map {A B C} (f : B -> list C) (g : A -> B) l : flat_map f (map g l) = flat_map (fun a => f (g a)) l.
Proof. induction l as [|a l IH]; [reflexivity|]. cbn. rewrite IH. reflexivity. Qed.

Lemma written_content idx D : every_row_listed (length D) idx ->
  (forall i, (i < length D)%nat -> x_w (nth i D no_row) = INR (cnt idx i)) ->
  same_content D (map (fun s => with_weight s 1) (take idx no_row D)).
Proof.
  intros O W. set (n := length D) in *. unfold take. rewrite map_map.
  eapply sc_trans; [|apply sc_order, Permutation_map, Permutation_sym, (written_perm n idx O)].
  rewrite map_flat.
  set (R0 := map (fun i => (nth i D no_row, pred (cnt idx i))) (seq 0 n)).
  assert (E1 : D = map (fun r => with_weight (fst r) (INR (S (snd r)))) R0).
  { unfold R0. rewrite map_map. cbn [fst snd]. apply nth_ext with (d := no_row) (d' := no_row); [rewrite map_length, seq_length; reflexivity|].
    intros j H. rewrite (nth_indep (map _ _) no_row (with_weight (nth 0%nat D no_row) (INR (S (pred (cnt idx 0%nat)))))) by (rewrite map_length, seq_length; exact H).
    rewrite (map_nth (fun i => with_weight (nth i D no_row) (INR (S (pred (cnt idx i))))) (seq 0 n) 0%nat j), seq_nth by exact H. cbn [plus].
    destruct (cnt_pos n idx j O H) as [m Em]. rewrite Em. cbn [pred]. rewrite <- Em, <- (W j H). symmetry. apply with_own. }
  assert (E2 : flat_map (fun r => copies (fst r) (S (snd r))) R0 = flat_map (fun a => map (fun x => with_weight (nth x D no_row) 1) (repeat a (cnt idx a))) (seq 0 n)).
  { unfold R0. rewrite flat_map_map. apply flat_map_in. intros i Hi. cbn [fst snd]. rewrite map_rep. unfold copies. apply in_seq in Hi.
    destruct (cnt_pos n idx i O) as [m Em]; [lia|]. rewrite Em. reflexivity. }
  rewrite <- E2. rewrite E1 at 1. apply repeated_rows.
Qed.

(** *** Training. *)
Section Repeat.
Variable gamma_median : R -> R.
Variable beta_ppf : R -> R -> R -> R.
Variable erfinv : R -> R.
Variable bad : R.
Variable k : kind.
Variable w : label.
Variable prior : option label.
Variable cfg : settings.
Variable rate : nat -> nat -> R.
Variable accepted : list target -> bool.
Variable style : list label -> group.
Notation fit pc := (fit_object gamma_median beta_ppf erfinv bad k pc cfg rate accepted style).
Notation run := (pipe_fit gamma_median beta_ppf erfinv bad k (Some w) prior cfg rate accepted style).
Notation ask := (pipe_predict k (Some w) prior).
Hypothesis linear : linear_kind k = true.
Hypothesis checks : checks_targets accepted.
Hypothesis dims : one_dimension_each style.

Lemma fit_written pc fuel o cols T idx : every_row_listed (length T) idx -> map v_w T = map (fun i => INR (cnt idx i)) (seq 0 (length T)) ->
  let r := fit pc fuel o {| d_cols := cols; d_targets := T |} in
  let r' := fit pc fuel o {| d_cols := taken_columns idx cols; d_targets := map unit_weight (take idx no_target T) |} in
  fst r = fst r' /\ (fst r = None -> same_model k pc (snd r') (snd r)).
Proof.
  intros O W. cbv zeta. set (T' := map unit_weight (take idx no_target T)).
  assert (NG : pc = true -> forall a, k <> GBSRegressor a) by (intros _ a ->; discriminate linear).
  assert (Wi : forall i, (i < length T)%nat -> v_w (nth i T no_target) = INR (cnt idx i)).
  { intros i Hi. change (v_w (nth i T no_target)) with (v_w (nth i T no_target)). rewrite <- (map_nth v_w). rewrite W.
    rewrite (nth_indep _ _ (INR (cnt idx 0%nat))) by (rewrite map_length, seq_length; exact Hi).
    rewrite (map_nth (fun i => INR (cnt idx i)) (seq 0 (length T)) 0%nat i), seq_nth by exact Hi. reflexivity. }
  assert (EA : accepted T = accepted T').
  { apply checks.
    - intros t I. apply in_app_or in I. destruct I as [I|I].
      + apply (In_nth _ _ no_target) in I. destruct I as (i & Hi & <-). rewrite (Wi i Hi). destruct (cnt_pos _ _ _ O Hi) as [m ->]. rewrite S_INR. pose proof (pos_INR m). lra.
      + unfold T' in I. apply in_map_iff in I. destruct I as (u & <- & _). cbn. lra.
    - intro v. unfold T'. rewrite map_map. rewrite !in_map_iff. split; intros (t & <- & I); exists t; (split; [reflexivity|]); apply (take_in _ _ no_target T O eq_refl); exact I. }
  assert (CD : forall columns, same_content (data_rows columns T) (data_rows (map (map (take idx NaN)) columns) T')).
  { intro columns. unfold T'. rewrite rows_unit, rows_taken by apply O. apply written_content; rewrite rows_length; [exact O|].
    intros i Hi. destruct (nth_rows columns T i Hi) as (t & T1 & T2). rewrite (nth_error_nth _ _ _ T2). cbn [x_w].
    apply (nth_error_nth _ _ no_target) in T1. rewrite <- T1. apply Wi. exact Hi. }
  destruct (accepted T) eqn:A.
  2:{ rewrite (fit_refused _ _ _ _ _ _ _ _ _ _ fuel o {| d_cols := cols; d_targets := T |}) by exact A.
      rewrite fit_refused by (cbn [d_targets]; rewrite <- EA; reflexivity). split; [reflexivity|discriminate]. }
  assert (A' : accepted T' = true) by congruence.
  set (gl := default_groups o cols).
  assert (Egl : default_groups o (taken_columns idx cols) = gl).
  { unfold gl, default_groups, taken_columns. destruct (b_groups o); [reflexivity|]. rewrite !map_map. cbn [fst]. reflexivity. }
  rewrite (fit_default gamma_median beta_ppf erfinv bad k cfg rate accepted style pc fuel o {| d_cols := cols; d_targets := T |} gl A eq_refl).
  rewrite (fit_default gamma_median beta_ppf erfinv bad k cfg rate accepted style pc fuel o {| d_cols := taken_columns idx cols; d_targets := T' |} gl A' Egl).
  set (o' := with_groups o gl). assert (G : b_groups o' = Some gl) by reflexivity.
  assert (EG : read_groups (d_cols {| d_cols := taken_columns idx cols; d_targets := T' |}) gl =
    match read_groups (d_cols {| d_cols := cols; d_targets := T |}) gl with Some v => Some (map (map (take idx NaN)) v) | None => None end).
  { cbn [d_cols]. apply taken_read_groups. }
  destruct (read_groups (d_cols {| d_cols := cols; d_targets := T |}) gl) as [columns|] eqn:Rd.
  2:{ rewrite (fit_no_column _ _ _ _ _ _ _ _ _ _ fuel o' gl _ G A Rd), (fit_no_column _ _ _ _ _ _ _ _ _ _ fuel o' gl {| d_cols := taken_columns idx cols; d_targets := T' |} G A' EG). cbn [d_targets].
      assert (EK : kind_scale k (map v_y T) (map v_w T) = kind_scale k (map v_y T') (map v_w T')).
      { rewrite <- (rows_y [] T), <- (rows_w [] T), <- (rows_y (map (map (take idx NaN)) []) T'), <- (rows_w (map (map (take idx NaN)) []) T').
        apply scale_same. intros h Hh. apply content_sums; [apply CD|exact Hh]. }
      rewrite EK. split; [reflexivity|]. clear EK. intro E. exfalso. destruct (kind_scale k _ _); discriminate E. }
  pose proof (fit_is_whole gamma_median beta_ppf erfinv bad k pc cfg rate accepted style NG fuel o' gl {| d_cols := cols; d_targets := T |} columns G A Rd) as H1.
  pose proof (fit_is_whole gamma_median beta_ppf erfinv bad k pc cfg rate accepted style NG fuel o' gl {| d_cols := taken_columns idx cols; d_targets := T' |} _ G A' EG) as H2.
  cbn [d_targets] in H1, H2.
  rewrite <- (weights_multiplicities _ _ _ _ _ _ (map style gl) cfg rate fuel _ _ linear (rows_formed style _ gl columns T dims Rd) (CD columns)) in H2.
  destruct (whole_fit _ _ _ _ _ _ _ _ _ _ _) ; try (rewrite H1, H2; split; [reflexivity|discriminate]).
  destruct H1 as (F1 & G1 & S1 & I1 & L1 & P1 & M1). destruct H2 as (F2 & G2 & S2 & I2 & L2 & P2 & M2). rewrite F1, F2. split; [reflexivity|]. intros _.
  split; [congruence|]. split; [congruence|]. split; [congruence|]. split; [congruence|].
  cbv zeta in *. apply predict_same; [exact NG|congruence|congruence|intro Hp; rewrite P1, P2 by exact Hp; reflexivity|congruence].
Qed.

Variable bins : label -> Z.
Variable props : option (label -> option N).
Variable inplace : bool.

Lemma written_mapped idx X : written_out w idx X = mapped w (fun _ => Fin 1) (take_rows idx X).
Proof.
  unfold written_out, mapped, take_rows. cbn [fr_df fr_float fr_index fr_cols]. f_equal. rewrite map_map. apply map_ext. intros [c v]. cbn [fst snd].
  destruct (label_eqb c w); [|reflexivity]. unfold take. rewrite map_map. reflexivity.
Qed.
Lemma pipe_written fuel o X y idx e P1 e' P1' : no_continuous_column props -> undeclared props (Some w) -> prior <> Some w ->
  table X -> length y = length (fr_index X) -> every_row_listed (length (fr_index X)) idx -> column_is X w (times_listed (length (fr_index X)) idx) ->
  run fuel {| l_binner := pipeline_binner bins props inplace; l_object := o |} X y = (e, P1) ->
  run fuel {| l_binner := pipeline_binner bins props inplace; l_object := o |} (written_out w idx X) (take idx 0%R y) = (e', P1') ->
  e = e' /\ (e = None -> same_model k (has_prior prior) (l_object P1') (l_object P1) /\ forall Y, ask P1' Y = ask P1 Y).
Proof.
  intros NC U Np TX L O CW E1 E2. rewrite written_mapped in E2. unfold pipe_fit in E1, E2. cbn [l_binner l_object] in E1, E2.
  pose proof (bin_fit_cells (pipeline_binner bins props inplace) w X idx eq_refl NC U O TX) as B.
  destruct (bin_fit _ X) as [b1|er] eqn:F, (bin_fit _ (mapped _ _ _)) as [b2|er']; try contradiction.
  2:{ injection E1 as <- <-. injection E2 as <- <-. subst er'. split; [reflexivity|discriminate]. }
  cbv zeta in E1, E2. rewrite (cells_transform _ _ B) in E2.
  destruct (listed_transform _ w _ _ _ TX F U O) as (Xt & Et & Et'). rewrite Et in E1. rewrite Et' in E2.
  destruct (binned_table _ _ _ _ _ TX TX F Et) as [TXt EI]. rewrite <- EI in L, O, CW.
  assert (GW : get_column (fr_cols Xt) w = Some (times_listed (length (fr_index Xt)) idx)).
  { destruct (bin_transform b1 X) as [r X'] eqn:EB. cbn [fst] in Et. subst r. destruct (transform_columns _ _ _ _ _ _ TX TX F EB) as [_ C].
    destruct (C w _ CW) as [_ C2]. apply (get_of_in _ _ _ (proj1 TXt)). apply C2. intros p (_ & _ & D). exact (U w eq_refl p D). }
  destruct (listed_targets w prior Xt y idx TXt Np O L GW) as [ET LT]. rewrite ET in E2.
  destruct (train_targets (Some w) prior Xt y) as [T|].
  2:{ injection E1 as <- <-. injection E2 as <- <-. split; [reflexivity|discriminate]. }
  rewrite mapped_excluded, taken_features in E2. destruct (LT T eq_refl) as [LT1 LT2]. rewrite <- LT1 in O, LT2.
  destruct (fit_written (has_prior prior) fuel o (feature_columns (Some w) prior Xt) T idx O LT2) as [H1 H2].
  destruct (fit_object _ _ _ _ _ _ _ _ _ _ fuel o {| d_cols := feature_columns (Some w) prior Xt; d_targets := T |}) as [[er|] o1];
    destruct (fit_object _ _ _ _ _ _ _ _ _ _ fuel o {| d_cols := taken_columns idx _; d_targets := _ |}) as [[er'|] o2]; cbn [fst snd] in H1, H2; try discriminate.
  - injection E1 as <- <-. injection E2 as <- <-. injection H1 as ->. split; [reflexivity|discriminate].
  - injection E1 as <- <-. injection E2 as <- <-. split; [reflexivity|]. intros _. specialize (H2 eq_refl). split; [exact H2|].
    intro Y. unfold pipe_predict. cbn [l_binner l_object]. rewrite (cells_transform _ _ B).
    destruct (fst (bin_transform b1 Y)) as [Yt|]; [|reflexivity]. destruct (predict_targets prior Yt); [|reflexivity]. apply H2.
Qed.
End Repeat.
