(** Feature groups with a recoded column. *)
From Coq Require Import ZArith QArith Qround List Bool Reals Lra Lia Permutation.
From Verif.Proofs Require Import FnumOrder LexFacts TrainFacts PredictFacts ChainFacts Simulation OrderFacts RenumberFacts RelabelFacts.
From Verif.Proofs Require Import FrameFacts RefitFacts PipeRows ShuffleFacts.
From Verif.Model Require Import Num LexBins Train Predict Link Estimators Gbs WholeFit BinSmoothers BinTransform Frames Refit.
From Verif.Spec Require Import LexSpec PredictSpec RelabelSpec RefitSpec ShuffleSpec.
Import ListNotations.
Local Open Scope R_scope.

(** *** The largest number in each column. *)
Definition filled (n : list Z) (rows : list (list fnum)) : Prop :=
  shape n /\
  (forall row, In row rows -> length row = length n /\ (missing_entry row \/ exists t, holds_tuple row t /\ valid_tuple n t)) /\
  (forall c m, nth_error n c = Some m -> exists row t, In row rows /\ holds_tuple row t /\ valid_tuple n t /\ nth_error t c = Some (m - 1)%Z).
Lemma filled_complete n rows row : filled n rows -> In row rows -> row_finite_semi_positive row = true ->
  exists t, holds_tuple row t /\ valid_tuple n t.
Proof.
  intros (_ & Rw & _) I C. destruct (Rw row I) as [_ [M|H]]; auto. apply semi_positive_iff in M. congruence.
Qed.
Lemma filled_bins n rows : n <> [] -> filled n rows -> data_n_bins (length n) rows = n.
Proof.
  intros N0 D. pose proof D as (Sh & Rw & Oc).
  assert (Hl : forall r, In r rows -> length r = length n) by (intros r I; apply Rw; auto).
  pose proof (data_n_bins_length (length n) rows Hl) as L.
  apply nth_error_ext. intro c.
  destruct (nth_error n c) as [m|] eqn:Ek.
  2:{ apply nth_error_None in Ek. apply nth_error_None. lia. }
  destruct (Oc c m Ek) as (row & t & I & H & V & E).
  pose proof (holds_semi_positive _ _ _ H V) as Cr.
  destruct (nth_error (data_n_bins (length n) rows) c) as [m'|] eqn:Ek'.
  2:{ apply nth_error_None in Ek'. assert (c < length n)%nat by (apply nth_error_Some; congruence). lia. }
  f_equal. apply Z.le_antisymm.
  - unfold data_n_bins in Ek'. destruct (filter row_finite_semi_positive rows) as [|r rs] eqn:Ef.
    + assert (X : In row (filter row_finite_semi_positive rows)) by (apply filter_In; split; auto).
      rewrite Ef in X. contradiction.
    + rewrite nth_error_map in Ek'. destruct (nth_error (fold_left col_max rs r) c) as [x|] eqn:Ex; [|discriminate].
      cbn in Ek'. injection Ek' as <-. destruct (fold_col_max_from _ _ _ _ Ex) as (s & I' & E'). rewrite <- Ef in I'. apply filter_In in I'. destruct I' as [I' C].
      destruct (filled_complete n rows s D I' C) as (t' & H' & V').
      assert (Et : nth_error t' c = Some (floor_of x)) by (rewrite <- (floors_holds _ _ H'), nth_error_map, E'; auto).
      pose proof (nth_valid n t' c m _ V' Ek Et). lia.
  - pose proof (data_rows_valid (length n) rows row Hl I Cr) as RV.
    destruct (valid_floors _ row ltac:(rewrite L; auto) RV) as [_ VF]. rewrite (floors_holds _ _ H) in VF.
    pose proof (nth_valid _ t c m' _ VF Ek' E). lia.
Qed.
Lemma bins_filled M rows : (forall r, In r rows -> length r = M) -> (forall r x, In r rows -> In x r -> whole x) ->
  (exists r, In r rows /\ row_finite_semi_positive r = true) -> filled (data_n_bins M rows) rows.
Proof.
  intros Hl W (r0 & I0 & C0). pose proof (data_n_bins_length M rows Hl) as L.
  assert (Cm : forall r, In r rows -> row_finite_semi_positive r = true -> exists t, holds_tuple r t /\ valid_tuple (data_n_bins M rows) t).
  { intros r I C. destruct (whole_holds r (fun x => W r x I) C) as (t & H). exists t. split; auto.
    pose proof (data_rows_valid M rows r Hl I C) as RV. destruct (valid_floors _ r ltac:(rewrite L; auto) RV) as [_ VF].
    rewrite (floors_holds _ _ H) in VF. auto. }
  split; [apply (data_shape M rows r0); auto|]. split.
  - intros r I. split; [rewrite L; auto|]. destruct (row_finite_semi_positive r) eqn:C; [right; auto|left; apply semi_positive_iff; auto].
  - intros c m E. unfold data_n_bins in E. destruct (filter row_finite_semi_positive rows) as [|r rs] eqn:Ef.
    + assert (X : In r0 (filter row_finite_semi_positive rows)) by (apply filter_In; split; auto). rewrite Ef in X. contradiction.
    + rewrite nth_error_map in E. destruct (nth_error (fold_left col_max rs r) c) as [x|] eqn:Ex; [|discriminate].
      cbn in E. injection E as <-. destruct (fold_col_max_from _ _ _ _ Ex) as (s & I' & E'). rewrite <- Ef in I'. apply filter_In in I'. destruct I' as [I' C].
      destruct (Cm s I' C) as (t & H & V). exists s, t. split; auto. split; auto. split; auto.
      rewrite <- (floors_holds _ _ H), nth_error_map, E'. cbn. f_equal. lia.
Qed.

(** *** Rows in which the entries of one column are renumbered. *)
Definition integral (x : fnum) : Prop := isfinite x = true -> exists z, x = Fin (inject_Z z).
Lemma integral_whole x : integral x -> whole x.
Proof. intros H F. destruct (H F) as (z & ->). exists z, (inject_Z z). split; reflexivity. Qed.
Lemma integral_same h x : (forall z, h z = z) -> integral x -> relabel_number h x = x.
Proof.
  intros E H. destruct x as [q| | |]; auto. destruct (H eq_refl) as (z & Ez). rewrite Ez. cbn [relabel_number]. rewrite Qfloor_Z, E. reflexivity.
Qed.

Lemma forall2_nth {A B} (P : A -> B -> Prop) : forall a b, length a = length b -> (forall p x y, nth_error a p = Some x -> nth_error b p = Some y -> P x y) -> Forall2 P a b.
Proof.
  induction a as [|x a IH]; intros [|y b] L H; try discriminate; constructor; [apply (H 0%nat); auto|].
  apply IH; [cbn in L; lia|]. intros p. apply (H (S p)).
Qed.

Section Column.
Variable c : label.
Variable tau : Z -> Z.
Variable kc : Z.
Hypothesis kc_pos : (0 <= kc)%Z.
Hypothesis Pm : permutes kc tau.

Definition rec_cell (d : label) (x : fnum) : fnum := if label_eqb d c then relabel_number tau x else x.
Definition rec_row (names : list label) (row : list fnum) : list fnum := map2 rec_cell names row.
Definition rec_col (d : label) (x : list fnum) : list fnum := if label_eqb d c then map (relabel_number tau) x else x.
Definition rec_cols (cols : list (label * list fnum)) : list (label * list fnum) := map (fun cv => (fst cv, rec_col (fst cv) (snd cv))) cols.
Definition perms (names : list label) : list (Z -> Z) := map (fun d => if label_eqb d c then tau else fun z => z) names.
Definition affected (names : list label) : bool := existsb (fun d => label_eqb d c) names && (0 <? kc)%Z.

Lemma rec_row_perms : forall names row, length names = length row -> (forall x, In x row -> integral x) -> relabel_row (perms names) row = rec_row names row.
Proof.
  induction names as [|d names IH]; intros [|x row] L H; try discriminate; [reflexivity|]. cbn in L.
  unfold relabel_row, rec_row, perms. cbn [map map2]. f_equal; [|apply IH; [lia|intros y I; apply H; right; auto]].
  unfold rec_cell. destruct (label_eqb d c); auto. apply integral_same; auto. apply H. left. auto.
Qed.
Lemma kc_zero_id z : kc = 0%Z -> tau z = z.
Proof. intro E. destruct Pm as (_ & P & _). apply P. lia. Qed.
Lemma rec_row_same names row : affected names = false -> length names = length row ->
  (forall j d x, nth_error names j = Some d -> nth_error row j = Some x -> d = c -> integral x) -> rec_row names row = row.
Proof.
  unfold affected. revert row. induction names as [|d names IH]; intros [|x row] A L H; try discriminate; [reflexivity|]. cbn in L. unfold rec_row. cbn [map2].
  cbn [existsb] in A. f_equal.
  - unfold rec_cell. destruct (label_eqb d c) eqn:E; auto. cbn [orb andb] in A. apply Z.ltb_ge in A.
    apply integral_same; [intro z; apply kc_zero_id; lia|]. apply label_eqb_iff in E. apply (H 0%nat d x); auto.
  - apply IH; [destruct (label_eqb d c); cbn [orb andb] in A; [rewrite A; apply andb_false_r|auto]|lia|].
    intros j d' x' H1 H2. apply (H (S j) d' x' H1 H2).
Qed.

(** The training rows of an affected group. *)
Section Rows.
Variable names : list label.
Variable rows : list (list fnum).
Hypothesis aff : affected names = true.
Hypothesis widths : forall r, In r rows -> length r = length names.
Hypothesis ints : forall r x, In r rows -> In x r -> integral x.
Hypothesis range : forall r p d x, In r rows -> nth_error names p = Some d -> nth_error r p = Some x -> d = c ->
  x = MISSING \/ exists z, (0 <= z < kc)%Z /\ x = Fin (inject_Z z).
Hypothesis cover : forall z, (0 <= z < kc)%Z -> exists r, In r rows /\ (forall x, In x r -> exists y, (0 <= y)%Z /\ x = Fin (inject_Z y)) /\
  forall p x, nth_error names p = Some c -> nth_error r p = Some x -> x = Fin (inject_Z z).
Let n := data_n_bins (length names) rows.

Lemma aff_kc : (0 < kc)%Z.
Proof. unfold affected in aff. apply andb_prop in aff. destruct aff as [_ A]. apply Z.ltb_lt in A. auto. Qed.
Lemma nonneg_complete r : (forall x, In x r -> exists y, (0 <= y)%Z /\ x = Fin (inject_Z y)) -> row_finite_semi_positive r = true.
Proof.
  intro H. unfold row_finite_semi_positive. apply andb_true_intro. split; apply forallb_forall; intros x I; destruct (H x I) as (y & Hy & ->); auto.
  unfold nonneg. apply fle_Fin. change 0%Q with (inject_Z 0). rewrite <- Zle_Qle. auto.
Qed.
Lemma rows_filled : filled n rows.
Proof.
  apply bins_filled; auto. { intros r x I J. apply integral_whole. eapply ints; eauto. }
  destruct (cover 0%Z) as (r & I & H & _); [pose proof aff_kc; lia|]. exists r. split; auto. apply nonneg_complete. auto.
Qed.
Lemma n_length : length n = length names.
Proof. apply data_n_bins_length. auto. Qed.
Lemma column_bins p m : nth_error names p = Some c -> nth_error n p = Some m -> m = kc.
Proof.
  intros Hp Hm. destruct rows_filled as (Sh & Rw & Oc). pose proof aff_kc as K.
  apply Z.le_antisymm.
  - destruct (Oc p m Hm) as (r & t & I & H & V & E).
    assert (Hx : exists x, nth_error r p = Some x).
    { destruct (nth_error r p) eqn:X; eauto. apply nth_error_None in X. rewrite (widths r I) in X.
      assert (p < length names)%nat by (apply nth_error_Some; congruence). lia. }
    destruct Hx as (x & Hx). pose proof (floors_holds _ _ H) as F. rewrite <- F, nth_error_map, Hx in E. cbn in E. injection E as E.
    destruct (range r p c x I Hp Hx eq_refl) as [-> |(z & Hz & ->)].
    + change (floor_of MISSING) with (-1)%Z in E.
      assert (0 < m)%Z by (unfold shape in Sh; rewrite Forall_forall in Sh; apply Sh; eapply nth_error_In; eauto). lia.
    + cbn [floor_of] in E. rewrite Qfloor_Z in E. lia.
  - destruct (cover (kc - 1)%Z) as (r & I & H & Hc); [lia|].
    destruct (filled_complete n rows r rows_filled I (nonneg_complete r H)) as (t & Ht & V).
    assert (Hx : exists x, nth_error r p = Some x).
    { destruct (nth_error r p) eqn:X; eauto. apply nth_error_None in X. rewrite (widths r I) in X.
      assert (p < length names)%nat by (apply nth_error_Some; congruence). lia. }
    destruct Hx as (x & Hx). rewrite (Hc p x Hp Hx) in Hx.
    assert (E : nth_error t p = Some (kc - 1)%Z) by (rewrite <- (floors_holds _ _ Ht), nth_error_map, Hx; cbn [option_map floor_of]; rewrite Qfloor_Z; auto).
    pose proof (nth_valid n t p m _ V Hm E). lia.
Qed.
Lemma id_permutes m : permutes m (fun z => z).
Proof. split; [auto|]. split; [auto|]. exists (fun z => z). auto. Qed.
Lemma rows_perms : Forall2 permutes n (perms names).
Proof.
  apply forall2_nth; [unfold perms; rewrite map_length; apply n_length|]. intros p m h Hm Hh. unfold perms in Hh. rewrite nth_error_map in Hh.
  destruct (nth_error names p) as [d|] eqn:Hd; [|discriminate]. cbn in Hh. injection Hh as <-.
  destruct (label_eqb d c) eqn:E; [|apply id_permutes]. apply label_eqb_iff in E. subst d. rewrite (column_bins p m Hd Hm). exact Pm.
Qed.
Lemma rows_relabelled : map (rec_row names) rows = map (relabel_row (perms names)) rows.
Proof. apply map_ext_in. intros r I. symmetry. apply rec_row_perms; [symmetry; auto|]. intros x J. eapply ints; eauto. Qed.
Lemma bins_kept : data_n_bins (length names) (map (rec_row names) rows) = n.
Proof.
  rewrite rows_relabelled, <- n_length. pose proof rows_filled as (Sh & Rw & Oc). pose proof rows_perms as P. pose proof (perm_lengths _ _ P) as LT.
  apply filled_bins. { intro E. pose proof n_length as L. rewrite E in L. destruct names; discriminate. }
  split; [exact Sh|]. split.
  - intros row I. apply in_map_iff in I. destruct I as (r & <- & I). destruct (Rw r I) as [L [M|(t & H & V)]].
    + split; [rewrite relabel_row_length; congruence|]. left. apply semi_positive_iff. rewrite (relabel_complete n _ P r L).
      apply semi_positive_iff. auto.
    + split; [rewrite relabel_row_length; congruence|]. right. exists (RelabelFacts.labels (perms names) t). split; [|apply labels_valid; auto].
      apply relabel_holds; congruence.
  - intros p m Hm.
    assert (Hd : exists d, nth_error names p = Some d).
    { destruct (nth_error names p) eqn:X; eauto. apply nth_error_None in X. rewrite <- n_length in X.
      assert (p < length n)%nat by (apply nth_error_Some; congruence). lia. }
    destruct Hd as (d & Hd).
    assert (Hp : nth_error (perms names) p = Some (if label_eqb d c then tau else fun z => z)) by (unfold perms; rewrite nth_error_map, Hd; auto).
    assert (X : exists r t y, In r rows /\ holds_tuple r t /\ valid_tuple n t /\ nth_error t p = Some y /\ (if label_eqb d c then tau y else y) = (m - 1)%Z).
    { destruct (label_eqb d c) eqn:E.
      - apply label_eqb_iff in E. subst d. pose proof (column_bins p m Hd Hm) as ->. pose proof aff_kc as K.
        destruct Pm as (_ & _ & u & U). destruct (U (kc - 1)%Z ltac:(lia)) as (U1 & U2 & _).
        destruct (cover (u (kc - 1)%Z) U1) as (r & I & H & Hc).
        destruct (filled_complete n rows r rows_filled I (nonneg_complete r H)) as (t & Ht & V).
        assert (Hx : exists x, nth_error r p = Some x).
        { destruct (nth_error r p) eqn:X; eauto. apply nth_error_None in X. rewrite (widths r I) in X.
          assert (p < length names)%nat by (apply nth_error_Some; congruence). lia. }
        destruct Hx as (x & Hx). rewrite (Hc p x Hd Hx) in Hx.
        exists r, t, (u (kc - 1)%Z). split; auto. split; auto. split; auto. split; auto.
        rewrite <- (floors_holds _ _ Ht), nth_error_map, Hx. cbn [option_map floor_of]. rewrite Qfloor_Z. auto.
      - destruct (Oc p m Hm) as (r & t & I & H & V & Et). exists r, t, (m - 1)%Z. auto. }
    destruct X as (r & t & y & I & H & V & Ey & Em). exists (relabel_row (perms names) r), (RelabelFacts.labels (perms names) t).
    split; [apply in_map; auto|]. split; [apply relabel_holds; auto; rewrite LT; symmetry; apply Rw; auto|].
    split; [apply labels_valid; auto|]. unfold RelabelFacts.labels. rewrite nth_error_map2, Hp, Ey. destruct (label_eqb d c); congruence.
Qed.
End Rows.
End Column.
