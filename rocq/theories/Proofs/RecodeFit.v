(** Training an estimator on a table with a renumbered column. *)
From Coq Require Import ZArith QArith Qround List Bool Reals Lra Lia Permutation.
From Verif.Proofs Require Import FnumOrder LexFacts TrainFacts PredictFacts ChainFacts Simulation OrderFacts RenumberFacts RelabelFacts.
From Verif.Proofs Require Import FrameFacts RefitFacts PipeRows ShuffleFacts RecodeGroups.
From Verif.Model Require Import Num LexBins Train Predict Link Estimators Gbs WholeFit BinSmoothers BinTransform Frames Refit.
From Verif.Spec Require Import LexSpec PredictSpec RelabelSpec RefitSpec ShuffleSpec.
Import ListNotations.
Local Open Scope R_scope.

Section Table.
Variable c : label.
Variable tau : Z -> Z.
Notation rcols := (rec_cols c tau).
Notation rcol := (rec_col c tau).

Lemma rec_get cols d : get_column (rcols cols) d = option_map (rcol d) (get_column cols d).
Proof.
  induction cols as [|[e v] r IH]; cbn [rec_cols map get_column fst snd]; [reflexivity|].
  destruct (label_eqb e d) eqn:E; [|exact IH]. apply label_eqb_iff in E. subst e. reflexivity.
Qed.
Lemma rec_read_columns cols names : read_columns (rcols cols) names = option_map (map2 rcol names) (read_columns cols names).
Proof.
  induction names as [|d r IH]; [reflexivity|]. cbn [read_columns]. rewrite rec_get, IH.
  destruct (get_column cols d); [|reflexivity]. destruct (read_columns cols r); reflexivity.
Qed.
Lemma rec_read_groups cols gl : read_groups (rcols cols) gl = option_map (map2 (map2 rcol) gl) (read_groups cols gl).
Proof.
  induction gl as [|g r IH]; [reflexivity|]. cbn [read_groups]. rewrite rec_read_columns, IH.
  destruct (read_columns cols g); [|reflexivity]. destruct (read_groups cols r); reflexivity.
Qed.
Lemma nth_map2 {A B C} (h : A -> B -> C) : forall a b i x y, nth_error a i = Some x -> nth_error b i = Some y -> nth_error (map2 h a b) i = Some (h x y).
Proof. induction a as [|u a IH]; intros [|v b] [|i] x y H1 H2; cbn in *; try discriminate; [congruence|apply IH; auto]. Qed.
Lemma read_groups_at cols gl v i names : read_groups cols gl = Some v -> nth_error gl i = Some names ->
  exists w, nth_error v i = Some w /\ read_columns cols names = Some w.
Proof.
  revert v i. induction gl as [|h r IH]; intros v i E H; [destruct i; discriminate|]. cbn [read_groups] in E.
  destruct (read_columns cols h) as [w|] eqn:Rc; [|discriminate]. destruct (read_groups cols r) as [ws|]; [|discriminate]. injection E as <-.
  destruct i; cbn in *; [injection H as <-; eauto|apply (IH ws); auto].
Qed.
Lemma read_columns_at cols names v p d x : read_columns cols names = Some v -> nth_error names p = Some d -> nth_error v p = Some x -> get_column cols d = Some x.
Proof.
  revert v p. induction names as [|e r IH]; intros v p E H1 H2; [destruct p; discriminate|]. cbn [read_columns] in E.
  destruct (get_column cols e) as [u|] eqn:G; [|discriminate]. destruct (read_columns cols r) as [ws|]; [|discriminate]. injection E as <-.
  destruct p; cbn in *; [congruence|eapply IH; eauto].
Qed.
Lemma rec_cells j : forall names w, length names = length w ->
  map (fun x => nth j x NaN) (map2 rcol names w) = rec_row c tau names (map (fun x => nth j x NaN) w).
Proof.
  induction names as [|d names IH]; intros [|x w] L; try discriminate; [reflexivity|]. cbn in L. unfold rec_row. cbn [map2 map]. f_equal; [|apply IH; lia].
  unfold rec_col, rec_cell. destruct (label_eqb d c); [|reflexivity]. change NaN with (relabel_number tau NaN) at 1. apply map_nth.
Qed.
End Table.

Section Fit.
Variable gamma_median : R -> R.
Variable beta_ppf : R -> R -> R -> R.
Variable erfinv : R -> R.
Variable bad : R.
Variable k : kind.
Variable cfg : settings.
Variable rate : nat -> nat -> R.
Variable accepted : list target -> bool.
Variable style : list label -> group.
Hypothesis dims : one_dimension_each style.
Variable c : label.
Variable tau : Z -> Z.
Variable kc : Z.
Hypothesis kc_pos : (0 <= kc)%Z.
Hypothesis Pm : permutes kc tau.
Notation fit pc := (fit_object gamma_median beta_ppf erfinv bad k pc cfg rate accepted style).
Notation rcols := (rec_cols c tau).

(** The table of a prediction. *)
Definition askable (gl : list (list label)) (cols : list (label * list fnum)) : Prop :=
  (forall x v, get_column cols c = Some x -> In v x -> integral v) /\
  forall names d x v, In names gl -> affected c kc names = true -> In d names -> get_column cols d = Some x -> In v x -> integral v.
(** The table of the training. *)
Definition trainable (gl : list (list label)) (cols : list (label * list fnum)) (m : nat) : Prop :=
  askable gl cols /\
  (forall x, get_column cols c = Some x -> length x = m /\ forall v, In v x -> v = MISSING \/ exists z, (0 <= z < kc)%Z /\ v = Fin (inject_Z z)) /\
  (forall names, In names gl -> affected c kc names = true ->
     (forall z, (0 <= z < kc)%Z -> exists j, (j < m)%nat /\ forall d x, In d names -> get_column cols d = Some x ->
        exists y, (0 <= y)%Z /\ nth j x NaN = Fin (inject_Z y) /\ (d = c -> y = z)) /\
     (label_free (g_smoother (style names)) \/ label_free_but_first (g_smoother (style names)) /\ tau 0%Z = 0%Z)).

Lemma cell_in (x : list fnum) j : nth j x NaN = NaN \/ In (nth j x NaN) x.
Proof. destruct (Nat.lt_ge_cases j (length x)) as [L|L]; [right; apply nth_In; auto|left; apply nth_overflow; auto]. Qed.
Lemma integral_nan : integral NaN. Proof. intro H. discriminate. Qed.

Section Both.
Variable gl : list (list label).
Variables cols : list (label * list fnum).
Variable T : list target.
Hypothesis Tr : trainable gl cols (length T).
Variable columns : list (list (list fnum)).
Hypothesis Rd : read_groups cols gl = Some columns.
Let D := data_rows columns T.
Let D' := data_rows (map2 (map2 (rec_col c tau)) gl columns) T.
Definition group_rows (i : nat) : list (list fnum) := map (fun j => map (fun x => nth j x NaN) (nth i columns [])) (seq 0 (length T)).

Lemma rows_bins cs i : map (fun s => x_bins s i) (data_rows cs T) = map (fun j => map (fun x => nth j x NaN) (nth i cs [])) (seq 0 (length T)).
Proof.
  unfold data_rows. rewrite map_map2. cbn [x_bins]. generalize (seq_length (length T) 0). generalize (seq 0 (length T)). clear.
  intros l. revert l. induction T as [|t r IH]; intros [|s l] H; cbn in *; try discriminate; [reflexivity|]. f_equal. apply IH. lia.
Qed.
Lemma group_bound i names : nth_error gl i = Some names -> exists w, nth i columns [] = w /\ read_columns cols names = Some w /\ length w = length names /\
  nth i (map2 (map2 (rec_col c tau)) gl columns) [] = map2 (rec_col c tau) names w.
Proof.
  intro H. destruct (read_groups_at _ _ _ _ _ Rd H) as (w & Hw & Rw). exists w. split; [apply (nth_error_nth _ _ [] Hw)|]. split; auto.
  split; [apply (read_columns_length _ _ _ Rw)|]. apply (nth_error_nth _ _ []). apply nth_map2; auto.
Qed.
Lemma row_cell names w j p d x : read_columns cols names = Some w -> nth_error names p = Some d -> nth_error (map (fun y => nth j y NaN) w) p = Some x ->
  exists col, get_column cols d = Some col /\ x = nth j col NaN.
Proof.
  intros Rw Hd Hx. rewrite nth_error_map in Hx. destruct (nth_error w p) as [col|] eqn:E; [|discriminate]. injection Hx as <-.
  exists col. split; auto. eapply read_columns_at; eauto.
Qed.
Lemma bind_rows_of i g : f_rows (bind_group D i g) = group_rows i.
Proof. unfold bind_group, D. cbn [f_rows]. apply rows_bins. Qed.
Lemma bind_rows_of' i names g : nth_error gl i = Some names -> f_rows (bind_group D' i g) = map (rec_row c tau names) (group_rows i).
Proof.
  intro H. unfold bind_group, D'. cbn [f_rows]. rewrite rows_bins. unfold group_rows. rewrite map_map. apply map_ext. intro j.
  destruct (group_bound i names H) as (w & E1 & Rw & L & E2). rewrite E1, E2. apply rec_cells. auto.
Qed.
Lemma group_rows_width i names r : nth_error gl i = Some names -> In r (group_rows i) -> length r = length names.
Proof.
  intros H I. unfold group_rows in I. apply in_map_iff in I. destruct I as (j & <- & _). rewrite map_length.
  destruct (group_bound i names H) as (w & -> & _ & L & _). auto.
Qed.

(** Unaffected groups keep their rows. *)
Lemma unaffected_row i names j : nth_error gl i = Some names -> affected c kc names = false ->
  rec_row c tau names (map (fun x => nth j x NaN) (nth i columns [])) = map (fun x => nth j x NaN) (nth i columns []).
Proof.
  intros H A. destruct (group_bound i names H) as (w & -> & Rw & L & _). apply (rec_row_same c tau kc kc_pos Pm); auto; [rewrite map_length; auto|].
  intros p d x Hd Hx ->. destruct (row_cell _ _ _ _ _ _ Rw Hd Hx) as (col & G & ->). destruct (cell_in col j) as [-> |I]; [apply integral_nan|].
  apply (proj1 (proj1 Tr) col); auto.
Qed.
Lemma unaffected_bind i names g : nth_error gl i = Some names -> affected c kc names = false -> bind_group D' i g = bind_group D i g.
Proof.
  intros H A. pose proof (bind_rows_of' i names g H) as E. pose proof (bind_rows_of i g) as E0. unfold bind_group in *. cbn [f_rows] in *. f_equal. rewrite E, E0.
  unfold group_rows. rewrite map_map. apply map_ext. intro j. eapply unaffected_row; eauto.
Qed.

(** Affected groups. *)
Lemma affected_group i names : nth_error gl i = Some names -> affected c kc names = true ->
  let f := bind_group D i (style names) in let f' := bind_group D' i (style names) in
  (1 <= f_dim f)%nat /\ f_dim f' = f_dim f /\ (forall r, In r (f_rows f) -> length r = f_dim f) /\
  (forall r, In r (f_rows f) -> row_finite_semi_positive r = true -> exists t, holds_tuple r t) /\
  shape (f_nbins f) /\ f_nbins f' = f_nbins f /\ Forall2 permutes (f_nbins f) (perms c tau names) /\
  f_rows f' = map (relabel_row (perms c tau names)) (f_rows f).
Proof.
  intros H A. cbv zeta. set (f := bind_group D i (style names)). set (f' := bind_group D' i (style names)).
  destruct (group_bound i names H) as (w & E1 & Rw & Lw & E2).
  pose proof (nth_error_In _ _ H) as In1. destruct Tr as ((T1 & T2) & T3 & T4). destruct (T4 names In1 A) as [Cv _].
  assert (Rf : f_rows f = group_rows i) by apply bind_rows_of.
  assert (Rf' : f_rows f' = map (rec_row c tau names) (group_rows i)) by (apply bind_rows_of'; auto).
  assert (Df : f_dim f = length names) by apply dims.
  assert (Wd : forall r, In r (group_rows i) -> length r = length names) by (intros r I; eapply group_rows_width; eauto).
  assert (Ints : forall r x, In r (group_rows i) -> In x r -> integral x).
  { intros r x I J. unfold group_rows in I. apply in_map_iff in I. destruct I as (j & <- & _). rewrite E1 in J.
    apply In_nth_error in J. destruct J as (p & Hp).
    assert (Hd : exists d, nth_error names p = Some d).
    { destruct (nth_error names p) eqn:X; eauto. apply nth_error_None in X. assert (p < length (map (fun y => nth j y NaN) w))%nat by (apply nth_error_Some; congruence).
      rewrite map_length in *. lia. }
    destruct Hd as (d & Hd). destruct (row_cell _ _ _ _ _ _ Rw Hd Hp) as (col & G & ->). destruct (cell_in col j) as [-> |Ic]; [apply integral_nan|].
    apply (T2 names d col); auto. eapply nth_error_In; eauto. }
  assert (Rg : forall r p d x, In r (group_rows i) -> nth_error names p = Some d -> nth_error r p = Some x -> d = c ->
    x = MISSING \/ exists z, (0 <= z < kc)%Z /\ x = Fin (inject_Z z)).
  { intros r p d x I Hd Hx ->. unfold group_rows in I. apply in_map_iff in I. destruct I as (j & <- & Ij). rewrite E1 in Hx.
    destruct (row_cell _ _ _ _ _ _ Rw Hd Hx) as (col & G & ->). destruct (T3 col G) as [Lc Hv]. apply Hv. apply nth_In. apply in_seq in Ij. lia. }
  assert (Co : forall z, (0 <= z < kc)%Z -> exists r, In r (group_rows i) /\ (forall x, In x r -> exists y, (0 <= y)%Z /\ x = Fin (inject_Z y)) /\
     forall p x, nth_error names p = Some c -> nth_error r p = Some x -> x = Fin (inject_Z z)).
  { intros z Hz. destruct (Cv z Hz) as (j & Lj & Hj). exists (map (fun x => nth j x NaN) w).
    split; [unfold group_rows; rewrite E1; apply in_map_iff; exists j; split; auto; apply in_seq; lia|]. split.
    - intros x J. apply In_nth_error in J. destruct J as (p & Hp).
      assert (Hd : exists d, nth_error names p = Some d).
      { destruct (nth_error names p) eqn:X; eauto. apply nth_error_None in X. assert (p < length (map (fun y => nth j y NaN) w))%nat by (apply nth_error_Some; congruence).
        rewrite map_length in *. lia. }
      destruct Hd as (d & Hd). destruct (row_cell _ _ _ _ _ _ Rw Hd Hp) as (col & G & ->).
      destruct (Hj d col (nth_error_In _ _ Hd) G) as (y & Hy & E & _). eauto.
    - intros p x Hp Hx. destruct (row_cell _ _ _ _ _ _ Rw Hp Hx) as (col & G & ->).
      destruct (Hj c col (nth_error_In _ _ Hp) G) as (y & Hy & E & Ey). rewrite E, Ey; auto. }
  assert (Nf : f_nbins f = data_n_bins (length names) (group_rows i)).
  { unfold f_nbins. rewrite Df, Rf. reflexivity. }
  assert (Nf' : f_nbins f' = data_n_bins (length names) (map (rec_row c tau names) (group_rows i))).
  { unfold f_nbins. rewrite Rf'. change (f_dim f') with (f_dim f). rewrite Df. reflexivity. }
  pose proof (rows_filled c kc names (group_rows i) A Wd Ints Co) as (Sh & Fl & _).
  split. { rewrite Df. destruct names; [discriminate|cbn; lia]. }
  split; [reflexivity|]. split; [rewrite Rf, Df; exact Wd|].
  split. { rewrite Rf. intros r I C. destruct (Fl r I) as [_ [M|(t & Ht & _)]]; [apply semi_positive_iff in M; congruence|eauto]. }
  split; [rewrite Nf; exact Sh|].
  split; [rewrite Nf, Nf'; apply (bins_kept c tau kc Pm names (group_rows i)); auto|].
  split; [rewrite Nf; apply (rows_perms c tau kc Pm names (group_rows i)); auto|].
  rewrite Rf, Rf'. apply map_ext_in. intros r I. symmetry. apply rec_row_perms; [symmetry; auto|intros x J; eapply Ints; eauto].
Qed.

Definition gsig (i : nat) : nat -> nat :=
  match nth_error gl i with
  | Some names => if affected c kc names then sigma_of (f_nbins (bind_group D i (style names))) (perms c tau names) else fun b => b
  | None => fun b => b
  end.
Definition gfin (i : nat) : nat :=
  match nth_error gl i with
  | Some names => if affected c kc names then Z.to_nat (size (f_nbins (bind_group D i (style names)))) else f_finite (bind_group D i (style names))
  | None => 0%nat
  end.
Definition glike (i : nat) (row row' : list fnum) : Prop :=
  match nth_error gl i with
  | Some names => length row = length names /\ row' = rec_row c tau names row /\
      if affected c kc names then forall x, In x row -> integral x else row' = row
  | None => True
  end.
Lemma id_bijection n : bijection n (fun b => b).
Proof. split; [intros x y E; exact E|]. split; auto. Qed.

Lemma group_of i g : nth_error (map style gl) i = Some g -> exists names, nth_error gl i = Some names /\ g = style names.
Proof. rewrite nth_error_map. destruct (nth_error gl i) as [names|]; [|discriminate]. intro E. injection E as <-. eauto. Qed.

Lemma recoded_fit pc fuel :
  match whole_fit gamma_median beta_ppf erfinv bad k pc (map style gl) cfg rate fuel D, whole_fit gamma_median beta_ppf erfinv bad k pc (map style gl) cfg rate fuel D' with
  | Trained m, Trained m' =>
      o_scale m' = o_scale m /\ o_offset m' = o_offset m /\ o_iterations m' = o_iterations m /\ o_loss m' = o_loss m /\
      forall X X', Forall2 (RenumberFacts.alike (map style gl) glike) X X' -> whole_predict k pc m' X' = whole_predict k pc m X
  | r, r' => r = r'
  end.
Proof.
  apply (renumber_fit gamma_median beta_ppf erfinv bad k pc (map style gl) cfg rate D D' gsig gfin) with (like := glike).
  - intro i. unfold gsig, gfin. destruct (nth_error gl i) as [names|] eqn:H; [|apply id_bijection].
    destruct (affected c kc names) eqn:A; [|apply id_bijection].
    destruct (affected_group i names H A) as (Dm & _ & _ & _ & Sh & _ & P & _). apply sigma_bijection; auto.
  - intros i g G. destruct (group_of i g G) as (names & H & ->). unfold gsig, gfin. rewrite H. destruct (affected c kc names) eqn:A.
    + destruct (affected_group i names H A) as (Dm & Dm' & Wd & Wh & Sh & Nb & P & Rw). apply group_pair; auto.
    + rewrite (unaffected_bind i names (style names) H A). constructor; auto. symmetry. apply map_id.
  - intros i g G. destruct (group_of i g G) as (names & H & ->). unfold gsig. rewrite H. destruct (affected c kc names) eqn:A; [|right; right; auto].
    destruct (affected_group i names H A) as (Dm & _ & _ & _ & Sh & _ & P & _).
    destruct Tr as (_ & _ & T4). destruct (T4 names (nth_error_In _ _ H) A) as [_ [S0|[S0 Z0]]]; auto. right. left. split; auto.
    apply sigma_first; auto. unfold perms. apply Forall_forall. intros h I. apply in_map_iff in I. destruct I as (d & <- & _). destruct (label_eqb d c); auto.
  - unfold D, D'. rewrite !rows_y. auto.
  - unfold D, D'. rewrite !rows_w. auto.
  - unfold D, D'. rewrite !rows_prior. auto.
  - intros i g s t a b row row' G Ha Hb [La Ra] Lk. destruct (group_of i g G) as (names & H & ->). unfold gsig, gfin, glike in *. rewrite H in *.
    destruct Lk as (Lr & Er & Lk). destruct (affected c kc names) eqn:A.
    + destruct (affected_group i names H A) as (Dm & Dm' & Wd & Wh & Sh & Nb & P & Rw).
      rewrite Er, <- (rec_row_perms c tau names row) by (auto; congruence).
      apply (group_rowpred (perms c tau names) _ _ Dm Dm' Wd Wh Sh Nb P Rw s t a b); auto.
      * rewrite Lr. symmetry. apply dims.
      * intros x I. apply integral_whole. auto.
    + subst row'. rewrite Lk. rewrite (unaffected_bind i names (style names) H A).
      assert (b = a) by (apply (renumbered_same (fun b => b)); auto). subst b. unfold store. rewrite Ha, Hb. reflexivity.
Qed.
End Both.

(** Rows to predict. *)
Lemma alike_rows gl cols2 rows2 (T2 : list target) : askable gl cols2 -> read_groups cols2 gl = Some rows2 ->
  Forall2 (RenumberFacts.alike (map style gl) (glike gl)) (data_rows rows2 T2) (data_rows (map2 (map2 (rec_col c tau)) gl rows2) T2).
Proof.
  intros (A1 & A2) Rd. apply forall2_nth; [rewrite !rows_length; auto|]. intros j s s' Hs Hs'.
  assert (J : (j < length T2)%nat) by (rewrite <- (rows_length rows2 T2); apply nth_error_Some; congruence).
  destruct (nth_rows rows2 T2 j J) as (t & Ht & B). destruct (nth_rows (map2 (map2 (rec_col c tau)) gl rows2) T2 j J) as (t' & Ht' & B').
  rewrite B in Hs. rewrite B' in Hs'. injection Hs as <-. injection Hs' as <-. assert (t' = t) by congruence. subst t'.
  split; [reflexivity|]. cbn [x_bins]. intros i g G. rewrite nth_error_map in G. destruct (nth_error gl i) as [names|] eqn:H; [|discriminate]. injection G as <-.
  destruct (read_groups_at _ _ _ _ _ Rd H) as (w & Hw & Rw). pose proof (read_columns_length _ _ _ Rw) as Lw.
  unfold glike. rewrite H, (nth_error_nth _ _ [] Hw), (nth_error_nth _ _ [] (nth_map2 (map2 (rec_col c tau)) gl rows2 i names w H Hw)).
  split; [rewrite map_length; auto|]. split; [apply rec_cells; auto|].
  assert (Cell : forall p x, nth_error (map (fun x => nth j x NaN) w) p = Some x -> exists d col, nth_error names p = Some d /\ get_column cols2 d = Some col /\ x = nth j col NaN).
  { intros p x Hx. rewrite nth_error_map in Hx. destruct (nth_error w p) as [col|] eqn:E; [|discriminate]. injection Hx as <-.
    assert (Hd : exists d, nth_error names p = Some d).
    { destruct (nth_error names p) eqn:X; eauto. apply nth_error_None in X. assert (p < length w)%nat by (apply nth_error_Some; congruence). lia. }
    destruct Hd as (d & Hd). exists d, col. split; auto. split; auto. eapply read_columns_at; eauto. }
  destruct (affected c kc names) eqn:A.
  - intros x I. apply In_nth_error in I. destruct I as (p & Hp). destruct (Cell p x Hp) as (d & col & Hd & G & ->).
    destruct (cell_in col j) as [-> |Ic]; [apply integral_nan|]. apply (A2 names d col); auto; eapply nth_error_In; eauto.
  - rewrite rec_cells by auto. apply (rec_row_same c tau kc kc_pos Pm); auto; [rewrite map_length; auto|].
    intros p d x Hd Hx ->. destruct (Cell p x Hx) as (d & col & Hd' & G & ->). assert (d = c) by congruence. subst d.
    destruct (cell_in col j) as [-> |Ic]; [apply integral_nan|]. apply (A1 col); auto.
Qed.

Lemma fit_recoded pc fuel o cols T : (pc = true -> forall a, k <> GBSRegressor a) ->
  trainable (default_groups o cols) cols (length T) ->
  let r := fit pc fuel o {| d_cols := cols; d_targets := T |} in
  let r' := fit pc fuel o {| d_cols := rcols cols; d_targets := T |} in
  fst r = fst r' /\ (fst r = None ->
    b_scale (snd r') = b_scale (snd r) /\ b_iter (snd r') = b_iter (snd r) /\ b_loss (snd r') = b_loss (snd r) /\
    forall cols2 T2, askable (default_groups o cols) cols2 ->
      predict_frame k pc (snd r') {| d_cols := rcols cols2; d_targets := T2 |} = predict_frame k pc (snd r) {| d_cols := cols2; d_targets := T2 |}).
Proof.
  intros NG Tr. cbv zeta.
  destruct (accepted T) eqn:A.
  2:{ rewrite !fit_refused by exact A. split; [reflexivity|discriminate]. }
  set (gl := default_groups o cols) in *.
  assert (Egl : default_groups o (rcols cols) = gl).
  { unfold gl, default_groups, rec_cols. destruct (b_groups o); [reflexivity|]. rewrite !map_map. cbn [fst]. reflexivity. }
  rewrite (fit_default _ _ _ _ _ _ _ _ _ pc fuel o {| d_cols := cols; d_targets := T |} gl A eq_refl).
  rewrite (fit_default _ _ _ _ _ _ _ _ _ pc fuel o {| d_cols := rcols cols; d_targets := T |} gl A Egl).
  set (o' := with_groups o gl). assert (G : b_groups o' = Some gl) by reflexivity.
  pose proof (rec_read_groups c tau cols gl) as EG.
  destruct (read_groups cols gl) as [columns|] eqn:Rd; cbn [option_map] in EG.
  2:{ pose proof (fit_no_column gamma_median beta_ppf erfinv bad k pc cfg rate accepted style fuel o' gl {| d_cols := cols; d_targets := T |} G A Rd) as E1.
      pose proof (fit_no_column gamma_median beta_ppf erfinv bad k pc cfg rate accepted style fuel o' gl {| d_cols := rcols cols; d_targets := T |} G A EG) as E2.
      cbn [d_targets] in E1, E2. rewrite E1, E2. split; [reflexivity|]. intro E. exfalso. destruct (kind_scale k _ _); discriminate E. }
  pose proof (fit_is_whole gamma_median beta_ppf erfinv bad k pc cfg rate accepted style NG fuel o' gl {| d_cols := cols; d_targets := T |} columns G A Rd) as H1.
  pose proof (fit_is_whole gamma_median beta_ppf erfinv bad k pc cfg rate accepted style NG fuel o' gl {| d_cols := rcols cols; d_targets := T |} _ G A EG) as H2.
  cbn [d_targets] in H1, H2. pose proof (recoded_fit gl cols T Tr columns Rd pc fuel) as W.
  destruct (whole_fit _ _ _ _ _ _ _ _ _ _ (data_rows columns T)) as [| |e|m] eqn:W1; destruct (whole_fit _ _ _ _ _ _ _ _ _ _ (data_rows (map2 _ gl columns) T)) as [| |e'|m'] eqn:W2;
    try discriminate W; try (rewrite H1, H2; split; [congruence|discriminate]).
  destruct H1 as (F1 & G1 & S1 & I1 & L1 & P1 & M1). destruct H2 as (F2 & G2 & S2 & I2 & L2 & P2 & M2). rewrite F1, F2. split; [reflexivity|]. intros _.
  destruct W as (V1 & V2 & V3 & V4 & V5). split; [congruence|]. split; [congruence|]. split; [congruence|].
  intros cols2 T2 As. pose proof (rec_read_groups c tau cols2 gl) as EG2.
  destruct (read_groups cols2 gl) as [rows2|] eqn:Rd2; cbn [option_map] in EG2.
  2:{ unfold predict_frame. rewrite G1, G2. cbn [d_cols]. rewrite Rd2, EG2. reflexivity. }
  rewrite (predict_is_whole gamma_median beta_ppf erfinv bad k pc cfg rate accepted style NG fuel o' gl {| d_cols := cols; d_targets := T |} columns m {| d_cols := cols2; d_targets := T2 |} rows2 G A Rd W1 Rd2).
  rewrite (predict_is_whole gamma_median beta_ppf erfinv bad k pc cfg rate accepted style NG fuel o' gl {| d_cols := rcols cols; d_targets := T |} _ m' {| d_cols := rcols cols2; d_targets := T2 |} _ G A EG W2 EG2).
  cbn [d_targets]. f_equal. apply V5. apply (alike_rows gl cols2); auto.
Qed.
End Fit.
