(** Prediction of a trained model: contributions of rows, and agreement with the
    in-sample prediction. *)
From Coq Require Import ZArith QArith Qround List Bool Reals Lia Lra.
From Verif.Model Require Import Num LexBins Train Predict.
From Verif.Spec Require Import LexSpec TrainSpec PredictSpec.
From Verif.Proofs Require Import NumFacts FnumOrder LexFacts TrainFacts TrainHistory TrainBounds.
Import ListNotations.
Local Open Scope R_scope.

(** ** Number of bins of the smoother *)
Lemma zmax_cols_ge (n : list Z) : forall a b, length a = length n -> length b = length n ->
  Forall2 Z.le a (zmax_cols a b) /\ Forall2 Z.le b (zmax_cols a b) /\ length (zmax_cols a b) = length n.
Proof.
  induction n as [|k n IH]; intros [|x a] [|y b] Ha Hb; cbn in Ha, Hb; try discriminate; cbn; auto.
  destruct (IH a b ltac:(lia) ltac:(lia)) as (I1 & I2 & I3). split; [|split]; try constructor; auto; lia.
Qed.
Lemma zle_refl a : Forall2 Z.le a a.
Proof. induction a; constructor; auto; lia. Qed.
Lemma zle_trans a : forall b c, Forall2 Z.le a b -> Forall2 Z.le b c -> Forall2 Z.le a c.
Proof. induction a; intros b c H1 H2; inversion H1; subst; inversion H2; subst; constructor; eauto. lia. Qed.
Lemma zle_antisym a : forall b, Forall2 Z.le a b -> Forall2 Z.le b a -> a = b.
Proof. induction a; intros b H1 H2; inversion H1; subst; inversion H2; subst; auto. f_equal; [lia|auto]. Qed.

Lemma zmax_cols_le n : forall a b, Forall2 Z.le a n -> Forall2 Z.le b n -> Forall2 Z.le (zmax_cols a b) n.
Proof.
  induction n as [|k n IH]; intros a b Ha Hb; inversion Ha; subst; inversion Hb; subst; cbn; constructor; auto. lia.
Qed.

Lemma fold_zmax (n : list Z) rs : forall r, length r = length n -> (forall s, In s rs -> length s = length n) ->
  Forall2 Z.le r (fold_left zmax_cols rs r) /\ (forall s, In s rs -> Forall2 Z.le s (fold_left zmax_cols rs r)) /\
  (Forall2 Z.le r n -> (forall s, In s rs -> Forall2 Z.le s n) -> Forall2 Z.le (fold_left zmax_cols rs r) n).
Proof.
  induction rs as [|s rs IH]; intros r Hr Hs; cbn [fold_left].
  - split; [apply zle_refl|]. split; [contradiction|auto].
  - destruct (zmax_cols_ge n r s Hr (Hs s (or_introl eq_refl))) as (Z1 & Z2 & Z3).
    destruct (IH (zmax_cols r s) Z3 (fun t Ht => Hs t (or_intror Ht))) as (I1 & I2 & I3).
    split; [eapply zle_trans; eauto|]. split.
    + intros t [<-|Ht]; [eapply zle_trans; eauto|auto].
    + intros Hn Hsn. apply I3; [apply zmax_cols_le; auto; apply Hsn; left; auto|intros t Ht; apply Hsn; right; auto].
Qed.

Lemma last_valid n : shape n -> valid_tuple n (map Z.pred n).
Proof. induction 1; cbn; constructor; auto. lia. Qed.
Lemma valid_le n t : valid_tuple n t -> Forall2 Z.le t (map Z.pred n).
Proof. induction 1; cbn; constructor; auto. lia. Qed.

Lemma set_n_bins_shape n : shape n -> set_n_bins (arange_multi n) = n.
Proof.
  intros Hs. rewrite arange_multi_rows by auto.
  pose proof (size_pos n Hs) as P.
  set (rows := map (fun i => digits n (Z.of_nat i)) (seq 0 (Z.to_nat (size n)))).
  assert (Hv : forall t, In t rows -> valid_tuple n t).
  { intros t Ht. apply in_map_iff in Ht. destruct Ht as (i & <- & _). apply digits_valid. auto. }
  assert (Hlast : In (map Z.pred n) rows).
  { pose proof (number_range n _ (last_valid n Hs)) as Rg.
    apply in_map_iff. exists (Z.to_nat (number n (map Z.pred n))). split; [|apply in_seq; lia].
    rewrite Z2Nat.id by lia.
    apply (number_injective n); [apply digits_valid; auto|apply last_valid; auto|].
    apply number_digits; auto. }
  destruct rows as [|r rs]; [contradiction|]. cbn [set_n_bins].
  assert (Hl : forall t, In t (r :: rs) -> length t = length (map Z.pred n)).
  { intros t Ht. rewrite map_length. apply valid_length. auto. }
  destruct (fold_zmax (map Z.pred n) rs r (Hl r (or_introl eq_refl)) (fun s Hss => Hl s (or_intror Hss))) as (F1 & F2 & F3).
  assert (E : fold_left zmax_cols rs r = map Z.pred n).
  { apply zle_antisym.
    - apply F3; [apply valid_le, Hv; left; auto|intros s Hss; apply valid_le, Hv; right; auto].
    - destruct Hlast as [<-|Hl']; auto. }
  rewrite E, map_map. rewrite <- (map_id n) at 2. apply map_ext. intros; lia.
Qed.

(** ** Row-wise prediction *)
Definition rowpred (m : trained) (row : list fnum) : R :=
  if row_finite_semi_positive row then
    if m_smoother m then match smoother_predict m row with Some v => v | None => 0 end else 0
  else m_missing m.

Lemma predict_factors_rowpred m rows : predict_factors m rows = map (rowpred m) rows.
Proof.
  unfold predict_factors. apply map_ext_in. intros row Hr. unfold rowpred.
  destruct (row_finite_semi_positive row) eqn:E; auto.
  assert (A : existsb row_finite_semi_positive rows = true) by (apply existsb_exists; eauto).
  rewrite A. cbn [andb]. destruct (m_smoother m); auto. destruct (smoother_predict m row); auto. lra.
Qed.

(** ** Shape from data *)
Lemma col_max_length a : forall b, length a = length b -> length (col_max a b) = length a.
Proof. induction a; intros [|y b] H; cbn in *; try discriminate; auto. Qed.

Lemma data_n_bins_length M rows : (forall r, In r rows -> length r = M) -> length (data_n_bins M rows) = M.
Proof.
  intro H. unfold data_n_bins. destruct (filter _ rows) as [|r rs] eqn:E; [apply repeat_length|].
  assert (A : forall s, In s (r :: rs) -> length s = M).
  { intros s Hs. rewrite <- E in Hs. apply filter_In in Hs. apply H. tauto. }
  rewrite map_length. pose proof (A r (or_introl eq_refl)) as Ar. assert (B : forall s, In s rs -> length s = M) by (intros; apply A; right; auto).
  clear -Ar B. revert r Ar B. induction rs as [|s rs IH]; intros r Ar B; cbn [fold_left]; auto.
  apply IH; [|intros; apply B; right; auto]. rewrite col_max_length; auto. rewrite (B s); auto. left; auto.
Qed.

Lemma data_shape M rows row : (forall r, In r rows -> length r = M) -> In row rows ->
  row_finite_semi_positive row = true -> shape (data_n_bins M rows).
Proof.
  intros H Hin Hf. pose proof (data_rows_valid M rows row H Hin Hf) as V.
  apply row_valid_spec in V; [|rewrite data_n_bins_length by auto; auto].
  unfold shape. clear -V. induction V as [|k x n r (V1 & V2 & V3) _ IH]; constructor; auto.
  destruct x as [q| | |]; try discriminate. apply fle_Fin in V2. apply flt_Fin in V3.
  change 0%Z with 0%Z. rewrite Zlt_Qlt. eapply Qle_lt_trans; eauto.
Qed.

Lemma data_empty M rows : (forall r, In r rows -> row_finite_semi_positive r = false) -> data_n_bins M rows = repeat 0%Z M.
Proof.
  intro H. unfold data_n_bins. replace (filter row_finite_semi_positive rows) with (@nil (list fnum)); auto.
  symmetry. induction rows as [|r rs IH]; cbn; auto. rewrite (H r) by (left; auto). apply IH. intros; apply H; right; auto.
Qed.

Lemma prodZ_zeros M : (1 <= M)%nat -> prodZ (repeat 0%Z M) = 0%Z.
Proof. destruct M; [lia|reflexivity]. Qed.

Lemma valid_floors n : forall row, length row = length n -> row_valid n row = true ->
  floors_below row n = true /\ valid_tuple n (map floor_of row).
Proof.
  intros row L V. apply row_valid_spec in V; auto. clear L.
  induction V as [|k x ns xs (H1 & H2 & H3) _ [IH1 IH2]]; [split; auto; constructor|].
  cbn [floors_below map]. destruct x as [q| | |]; try discriminate.
  assert (Fq : (0 <= Qfloor q < k)%Z).
  { apply fle_Fin in H2. apply flt_Fin in H3. split.
    - apply Qfloor_resp_le in H2. exact H2.
    - rewrite Zlt_Qlt. eapply Qle_lt_trans; [apply Qfloor_le|auto]. }
  split.
  - unfold nonneg. rewrite H2. cbn [isfinite floor_of andb]. rewrite (proj2 (Z.ltb_lt _ _)) by lia. auto.
  - constructor; auto.
Qed.

Lemma nth_firstn (l : list R) n k : (k < n)%nat -> nth k (firstn n l) 0 = nth k l 0.
Proof. revert n k. induction l as [|x l IH]; intros [|n] [|k] H; cbn; auto; try lia. apply IH. lia. Qed.

Section OneFeature.
Variable f : feature.
Hypothesis Hdim : (1 <= f_dim f)%nat.
Hypothesis Hrows : forall r, In r (f_rows f) -> length r = f_dim f.

Lemma f_nbins_data : f_nbins f = data_n_bins (f_dim f) (f_rows f).
Proof. reflexivity. Qed.

Lemma f_shape_or_empty :
  (shape (f_nbins f) /\ f_finite f = Z.to_nat (size (f_nbins f)) /\ (0 < f_finite f)%nat) \/
  (f_nbins f = repeat 0%Z (f_dim f) /\ f_finite f = 0%nat /\ forall r, In r (f_rows f) -> row_finite_semi_positive r = false).
Proof.
  rewrite f_nbins_data. destruct (existsb row_finite_semi_positive (f_rows f)) eqn:E.
  - apply existsb_exists in E. destruct E as (r & Hr & Hf). left.
    pose proof (data_shape _ _ _ Hrows Hr Hf) as Sh. split; auto.
    unfold f_finite. rewrite f_nbins_data, size_prod. pose proof (size_pos _ Sh). lia.
  - right. assert (A : forall r, In r (f_rows f) -> row_finite_semi_positive r = false).
    { intros r Hr. destruct (row_finite_semi_positive r) eqn:F; auto.
      assert (existsb row_finite_semi_positive (f_rows f) = true) by (apply existsb_exists; eauto). congruence. }
    rewrite (data_empty _ _ A). split; auto. split; auto. unfold f_finite. rewrite f_nbins_data, (data_empty _ _ A), prodZ_zeros; auto.
Qed.

Lemma f_nbins_length : length (f_nbins f) = f_dim f.
Proof. rewrite f_nbins_data. apply data_n_bins_length. auto. Qed.

Lemma store_nbins s : (0 < f_finite f)%nat -> m_nbins (store f s) = f_nbins f.
Proof.
  intro H. unfold store. cbn [m_nbins]. destruct (Nat.eqb_spec (f_finite f) 0); [lia|].
  destruct f_shape_or_empty as [(S1 & _)|(_ & E & _)]; [|lia]. apply set_n_bins_shape. auto.
Qed.

(** Lexicographic number of a training row. *)
Lemma f_lex_nth j row : nth_error (f_rows f) j = Some row ->
  nth j (f_lex f) 0%nat = if row_finite_semi_positive row then Z.to_nat (lex_value (f_nbins f) row) else f_finite f.
Proof.
  intro Hj. pose proof (nth_error_In _ _ Hj) as Hin.
  unfold f_lex. unfold lexicographic_binnos. cbn [fst]. rewrite map_map.
  rewrite (nth_indep _ 0%nat ((fun x => Z.to_nat (if row_valid (data_n_bins (f_dim f) (f_rows f)) x then lex_value (data_n_bins (f_dim f) (f_rows f)) x
    else if existsb (row_valid (data_n_bins (f_dim f) (f_rows f))) (f_rows f) then prodZ (data_n_bins (f_dim f) (f_rows f)) else 0%Z)) row)).
  2:{ rewrite map_length. apply nth_error_Some. congruence. }
  rewrite (map_nth (fun x => Z.to_nat (if row_valid (data_n_bins (f_dim f) (f_rows f)) x then _ else _))).
  rewrite (nth_error_nth _ _ row Hj). rewrite <- f_nbins_data.
  destruct (row_finite_semi_positive row) eqn:E.
  - rewrite f_nbins_data, (data_rows_valid _ _ _ Hrows Hin E). reflexivity.
  - assert (V : row_valid (f_nbins f) row = false).
    { destruct (row_valid (f_nbins f) row) eqn:V; auto. exfalso.
      apply row_valid_spec in V; [|rewrite f_nbins_length; auto].
      assert (A : row_finite_semi_positive row = true); [|congruence].
      unfold row_finite_semi_positive. clear -V. induction V as [|k x ns xs (H1 & H2 & H3) _ IH]; auto.
      cbn [forallb]. apply andb_prop in IH. destruct IH as [I1 I2]. fold (nonneg x) in H2. rewrite H1, H2, I1, I2. reflexivity. }
    rewrite V. unfold f_finite. destruct (existsb (row_valid (f_nbins f)) (f_rows f)) eqn:Ee; auto.
    destruct f_shape_or_empty as [(S1 & S2 & S3)|(E1 & E2 & E3)]; [|fold (f_finite f); rewrite E2; reflexivity].
    exfalso. destruct (existsb row_finite_semi_positive (f_rows f)) eqn:Es.
    + apply existsb_exists in Es. destruct Es as (r & Hr & Hf).
      assert (existsb (row_valid (f_nbins f)) (f_rows f) = true); [|congruence].
      apply existsb_exists. exists r. split; auto. rewrite f_nbins_data. apply data_rows_valid; auto.
    + assert (A : forall r, In r (f_rows f) -> row_finite_semi_positive r = false).
      { intros r Hr. destruct (row_finite_semi_positive r) eqn:F; auto.
        assert (existsb row_finite_semi_positive (f_rows f) = true) by (apply existsb_exists; eauto). congruence. }
      unfold f_finite in S3. rewrite f_nbins_data, (data_empty _ _ A), prodZ_zeros in S3 by auto. cbn in S3. lia.
Qed.

(** The stored model reproduces the contribution of a training row. *)
Lemma rowpred_training s a j row : s_agg s = Some a -> length a = S (f_finite f) ->
  (f_dim f = 1%nat -> forall x, In x row -> whole x) ->
  nth_error (f_rows f) j = Some row -> rowpred (store f s) row = contribution f a j.
Proof.
  intros Ha La Hw Hj. pose proof (nth_error_In _ _ Hj) as Hin. pose proof (Hrows row Hin) as Lr.
  unfold contribution. rewrite (f_lex_nth j row Hj). unfold rowpred.
  destruct (row_finite_semi_positive row) eqn:E.
  2:{ unfold store. cbn [m_missing]. rewrite Ha. reflexivity. }
  destruct f_shape_or_empty as [(S1 & S2 & S3)|(E1 & E2 & E3)]; [|rewrite (E3 row Hin) in E; discriminate].
  assert (Sm : m_smoother (store f s) = true).
  { unfold store. cbn [m_smoother]. destruct (Nat.eqb_spec (f_finite f) 0); auto; lia. }
  rewrite Sm. unfold smoother_predict. rewrite store_nbins by auto.
  pose proof (data_rows_valid _ _ _ Hrows Hin E) as V. rewrite <- f_nbins_data in V.
  destruct (valid_floors (f_nbins f) row ltac:(rewrite f_nbins_length; auto) V) as [V1 V2].
  pose proof (number_range _ _ V2) as Rg.
  assert (Lv : lex_value (f_nbins f) row = number (f_nbins f) (map floor_of row)).
  { unfold lex_value. apply dot_number. rewrite map_length, f_nbins_length. auto. }
  assert (Vals : m_values (store f s) = firstn (f_finite f) a) by (unfold store; cbn [m_values]; rewrite Ha; reflexivity).
  rewrite Vals. change (m_dim (store f s)) with (f_dim f).
  destruct (Nat.ltb_spec (f_dim f) 2) as [Hd|Hd].
  - assert (Hd1 : f_dim f = 1%nat) by lia. rewrite Hd1 in Lr.
    destruct row as [|x [|? ?]]; try discriminate.
    pose proof f_nbins_length as Ln. rewrite Hd1 in Ln.
    destruct (f_nbins f) as [|n [|? ?]] eqn:En; try discriminate.
    cbn [map number] in Lv, Rg. inversion V2; subst.
    unfold row_finite_semi_positive in E. apply andb_prop in E. destruct E as [Ef Eg].
    cbn [forallb] in Ef, Eg. rewrite andb_true_r in Ef, Eg.
    destruct (Hw Hd1 x (or_introl eq_refl) Ef) as (k & Hk).
    pose proof (floor_holds x k Hk) as Fk. pose proof (np_round_int x k Hk) as Rk.
    unfold onedim_predict. cbn [hd]. rewrite Ef, Eg. cbn [andb]. rewrite Rk.
    cbn [size] in S2, Rg. rewrite firstn_length_le by lia.
    rewrite (proj2 (Z.ltb_lt _ _)) by lia. rewrite Lv. cbn [size]. rewrite nth_firstn by lia. f_equal. lia.
  - unfold multidim_predict. rewrite V1. unfold lex_value in Lv. rewrite Lv.
    rewrite nth_firstn by lia. unfold lex_value. rewrite Lv. reflexivity.
Qed.

(** Contribution to an arbitrary row. *)
Lemma holds_not_missing n row t : holds_tuple row t -> valid_tuple n t -> row_finite_semi_positive row = true.
Proof. apply holds_semi_positive. Qed.

Lemma rowpred_contributes s a row : s_agg s = Some a -> length a = S (f_finite f) ->
  contributes (f_nbins f) (firstn (f_finite f) a) (nth (f_finite f) a 0) row (rowpred (store f s) row).
Proof.
  intros Ha La.
  assert (Vals : m_values (store f s) = firstn (f_finite f) a) by (unfold store; cbn [m_values]; rewrite Ha; reflexivity).
  unfold contributes. split; [|split].
  - intro Hm. apply semi_positive_iff in Hm. unfold rowpred. rewrite Hm. unfold store. cbn [m_missing]. rewrite Ha. reflexivity.
  - intros t Hh Hv. unfold rowpred. rewrite (holds_semi_positive _ _ _ Hh Hv).
    destruct f_shape_or_empty as [(S1 & S2 & S3)|(E1 & E2 & E3)].
    2:{ exfalso. rewrite E1 in Hv. destruct (f_dim f); [lia|]. inversion Hv; subst. lia. }
    assert (Sm : m_smoother (store f s) = true).
    { unfold store. cbn [m_smoother]. destruct (Nat.eqb_spec (f_finite f) 0); auto; lia. }
    rewrite Sm. unfold smoother_predict. rewrite store_nbins, Vals by auto. change (m_dim (store f s)) with (f_dim f).
    pose proof (number_range _ _ Hv) as Rg.
    destruct (Nat.ltb_spec (f_dim f) 2) as [Hd|Hd].
    + pose proof f_nbins_length as Ln. assert (Hd1 : f_dim f = 1%nat) by lia. rewrite Hd1 in Ln.
      destruct (f_nbins f) as [|n [|? ?]] eqn:En; try discriminate.
      inversion Hv as [|? i ? ? Hi Hr]; subst. inversion Hr; subst. inversion Hh as [|x ? ? ? Hx Hr2]; subst. inversion Hr2; subst.
      unfold onedim_predict. cbn [hd]. rewrite (np_round_int x i Hx).
      assert (X : isfinite x && nonneg x = true).
      { destruct Hx as (q & -> & Eq). cbn [isfinite andb]. unfold nonneg. apply fle_Fin. rewrite Eq. change 0%Q with (inject_Z 0). rewrite <- Zle_Qle. lia. }
      rewrite X. cbn [andb size number] in *. rewrite firstn_length_le by lia.
      rewrite (proj2 (Z.ltb_lt _ _)) by lia. f_equal. lia.
    + pose proof (holds_valid _ _ _ Hh Hv) as V.
      destruct (valid_floors (f_nbins f) row ltac:(rewrite (holds_length _ _ Hh); apply valid_length; auto) V) as [V1 V2].
      unfold multidim_predict. rewrite V1, (floors_holds _ _ Hh), dot_number by (apply valid_length; auto). reflexivity.
  - intros t Hh Hl Hv Hm. unfold rowpred.
    destruct (row_finite_semi_positive row) eqn:Es; [|exfalso; apply Hm, semi_positive_iff; auto].
    destruct (m_smoother (store f s)) eqn:Sm; auto.
    assert (Fp : (0 < f_finite f)%nat).
    { unfold store in Sm. cbn [m_smoother] in Sm. destruct (Nat.eqb_spec (f_finite f) 0); [discriminate|lia]. }
    destruct f_shape_or_empty as [(S1 & S2 & S3)|(E1 & E2 & E3)]; [|lia].
    unfold smoother_predict. rewrite store_nbins, Vals by auto. change (m_dim (store f s)) with (f_dim f).
    assert (Hnn : Forall (fun k => 0 <= k)%Z t).
    { unfold row_finite_semi_positive in Es. apply andb_prop in Es. destruct Es as [_ Es].
      clear -Hh Es. induction Hh as [|x k r ts (q & -> & Eq) _ IH]; constructor.
      - cbn [forallb] in Es. apply andb_prop in Es. destruct Es as [Es _]. unfold nonneg in Es. apply fle_Fin in Es.
        rewrite Eq in Es. change 0%Q with (inject_Z 0) in Es. rewrite <- Zle_Qle in Es. auto.
      - apply IH. cbn [forallb] in Es. apply andb_prop in Es. tauto. }
    destruct (Nat.ltb_spec (f_dim f) 2) as [Hd|Hd].
    + pose proof f_nbins_length as Ln. assert (Hd1 : f_dim f = 1%nat) by lia. rewrite Hd1 in Ln.
      destruct (f_nbins f) as [|n [|? ?]] eqn:En; try discriminate.
      destruct t as [|i [|? ?]]; cbn in Hl; try discriminate.
      inversion Hh as [|x ? ? ? Hx Hr2]; subst. inversion Hr2; subst. inversion Hnn; subst.
      unfold onedim_predict. cbn [hd]. rewrite (np_round_int x i Hx). cbn [size] in S2. rewrite firstn_length_le by lia.
      rewrite (proj2 (Z.ltb_ge _ _)); [rewrite andb_false_r; auto|].
      destruct (Z.lt_ge_cases i n); [|lia]. exfalso. apply Hv. constructor; [lia|constructor].
    + unfold multidim_predict. destruct (floors_below row (f_nbins f)) eqn:Fb; auto. exfalso. apply Hv.
      clear -Fb Hh Hl. revert t row Hh Hl Fb. induction (f_nbins f) as [|n ns IH]; intros [|i t] row Hh Hl Fb; cbn in Hl; try discriminate; [constructor|].
      inversion Hh as [|x ? r ? Hx Hr2]; subst. cbn [floors_below] in Fb.
      apply andb_prop in Fb. destruct Fb as [Fb Fb2]. apply andb_prop in Fb. destruct Fb as [Fb Fb3]. apply andb_prop in Fb. destruct Fb as [Fb4 Fb5].
      rewrite (floor_holds x i Hx) in Fb3. apply Z.ltb_lt in Fb3.
      constructor; [|apply (IH t r); auto].
      destruct Hx as (q & -> & Eq). unfold nonneg in Fb5. apply fle_Fin in Fb5. rewrite Eq in Fb5.
      change 0%Q with (inject_Z 0) in Fb5. rewrite <- Zle_Qle in Fb5. lia.
Qed.

End OneFeature.

(** ** Whole model *)
Lemma predict_column N e ms : forall i p X j, plen N p -> length X = N -> (j < N)%nat ->
  plen N (predict_from i ms p X) /\
  nth j (col e (predict_from i ms p X)) 0 = nth j (col e p) 0 + group_sum rowpred e i ms (nth j X (fun _ => [])).
Proof.
  induction ms as [|m ms IH]; intros i p X j Hp HX Hj; cbn [predict_from group_sum]; [split; auto; lra|].
  set (c := predict_factors m (map (fun x => x i) X)).
  assert (Lc : length c = N).
  { unfold c. rewrite predict_factors_rowpred, !map_length. auto. }
  destruct (IH (S i) (add_preds (m_ext m) p c) X j (plen_add _ _ _ _ Hp Lc) HX Hj) as [I1 I2].
  split; auto. rewrite I2, (col_add N) by auto.
  assert (Ec : nth j c 0 = rowpred m (nth j X (fun _ => []) i)).
  { unfold c. rewrite predict_factors_rowpred, map_map.
    rewrite (nth_indep _ 0 (rowpred m ((fun _ : nat => []) i))) by (rewrite map_length; exact (eq_ind_r (fun n => (j < n)%nat) Hj HX)).
    exact (map_nth (fun x : datarow => rowpred m (x i)) X (fun _ => []) j). }
  rewrite Ec. destruct (Bool.eqb (m_ext m) e); lra.
Qed.

Section InSample.
Variable cfg : settings.
Variable features : list feature.
Variable calc : nat -> nat -> preds -> list R.
Variable smooth : nat -> nat -> preds -> list R -> nat -> option R.
Variable calib : nat -> list R -> list R.
Variable rate : nat -> nat -> R.
Variable loss : preds -> R.
Variable prior : preds.
Notation hist := (reached cfg features calc smooth calib rate loss prior).
Notation fit := (fit_main cfg features calc smooth calib rate loss).
Variable N : nat.
Hypothesis Hw : well_shaped N features prior.
Hypothesis Ho : one_per_bin features calc calib.

Lemma reached_nonagg st : hist st -> t_diverging st = 0%nat -> Forall (nonagg_ok cfg) (t_feats st).
Proof.
  induction 1 as [|st st' H IH C E]; intro D.
  - cbn. apply Forall_forall. intros s Hs. apply in_map_iff in Hs. destruct Hs as (f & <- & _).
    intros _. right. split; auto. cbn. unfold zeros. clear. generalize (f_finite f). intro n. cbn. f_equal. induction n; cbn; auto. f_equal; auto.
  - destruct (diverging_zero_prev _ _ _ _ _ _ _ _ _ _ E D) as [D1 D2].
    destruct (iteration_ok _ _ _ _ _ _ _ _ _ _ E) as (sl & p & F & _ & _ & _ & _ & _ & _ & _ & R).
    rewrite D2 in R. injection R as R1 R2.
    pose proof (reached_inv cfg features calc smooth calib rate loss prior N Hw Ho st H) as [V1 V2].
    destruct (features_pass_ok cfg features calc smooth calib rate loss prior N Hw Ho features 0 (t_feats st) _ _ _ _ _ sl p (fun m f H => H) V1 V2 F) as (_ & _ & F3 & _).
    rewrite <- R1. auto.
Qed.

Lemma group_contributions e j : forall fl sl i, (j < N)%nat ->
  (forall f, In f fl -> (1 <= f_dim f)%nat /\ length (f_rows f) = N /\ (forall r, In r (f_rows f) -> length r = f_dim f) /\
     (f_dim f = 1%nat -> whole_rows (f_rows f))) ->
  Forall2 shaped fl sl -> Forall has_agg sl ->
  forall row : datarow, (forall m f, nth_error fl m = Some f -> row (i + m)%nat = nth j (f_rows f) []) ->
  group_sum rowpred e i (map (fun fs => store (fst fs) (snd fs)) (combine fl sl)) row = contributions e fl (map learned sl) j.
Proof.
  intros fl sl i Hj Hf Hs. revert i Hf. induction Hs as [|f s fl sl Sh _ IH]; intros i Hf Ha row Hr; [reflexivity|].
  cbn [combine map group_sum contributions fst snd]. inversion Ha as [|? ? A1 A2]; subst.
  rewrite (IH (S i)); auto.
  2:{ intros g Hg. apply Hf. right; auto. }
  2:{ intros m g Hg. replace (S i + m)%nat with (i + S m)%nat by lia. apply Hr. exact Hg. }
  f_equal. change (m_ext (store f s)) with (f_ext f). destruct (Bool.eqb (f_ext f) e); auto.
  destruct (Hf f (or_introl eq_refl)) as (F1 & F2 & F3 & F4).
  unfold has_agg in A1. destruct (s_agg s) as [a|] eqn:Ea; [|congruence].
  destruct Sh as (S1 & S2 & S3 & S4).
  pose proof (Hr 0%nat f eq_refl) as Hrow. rewrite Nat.add_0_r in Hrow. rewrite Hrow.
  assert (Hn : nth_error (f_rows f) j = Some (nth j (f_rows f) [])) by (apply nth_error_nth'; lia).
  unfold learned. rewrite Ea. apply rowpred_training; auto.
  intros Hd x Hx. apply (F4 Hd (nth j (f_rows f) [])); auto. eapply nth_error_In; eauto.
Qed.

Lemma insample fuel st : fit fuel prior = Some (Ok st) ->
  (c_aggregate cfg = true \/ t_diverging st = 0%nat) ->
  (forall f, In f features -> (1 <= f_dim f)%nat) ->
  (forall f, In f features -> f_dim f = 1%nat -> whole_rows (f_rows f)) ->
  forall e j, (j < N)%nat ->
    nth j (column e (predict_extended (trained_model features st) prior (training_data features N))) 0 =
    nth j (column e (t_preds st)) 0.
Proof.
  intros E Hor Hd Hwh e j Hj.
  destruct (fit_reached cfg features calc smooth calib rate loss prior fuel st E) as (R & _ & _).
  pose proof (all_trained cfg features calc smooth calib rate loss prior fuel st E) as A.
  pose proof (reached_booked cfg features calc smooth calib rate loss prior N Hw Ho st R Hor e j Hj) as B.
  pose proof (reached_inv cfg features calc smooth calib rate loss prior N Hw Ho st R) as [V1 V2].
  destruct Hw as (W1 & W2 & W3).
  assert (LX : length (training_data features N) = N) by (unfold training_data; rewrite map_length, seq_length; auto).
  destruct (predict_column N e (trained_model features st) 0 prior (training_data features N) j (conj W1 W2) LX Hj) as [_ P].
  unfold predict_extended, column. unfold col in B, P. rewrite P, B. f_equal.
  assert (Hst : map (stored cfg) (t_feats st) = map learned (t_feats st)).
  { unfold stored. destruct (c_aggregate cfg) eqn:Ea; auto.
    destruct Hor as [|D]; [congruence|].
    pose proof (reached_nonagg st R D) as NA. apply map_ext_in. intros s Hs. rewrite Forall_forall in NA, A.
    unfold learned. destruct (NA s Hs Ea) as [Hq|[Hq _]]; [rewrite Hq; auto|exfalso; apply (A s Hs); auto]. }
  rewrite Hst. unfold trained_model.
  apply group_contributions; auto.
  - intros f Hf. destruct (W3 f Hf) as [X1 X2]. split; [auto|split; [auto|split; [auto|]]]. intro Hdf. apply Hwh; auto.
  - intros m f Hm. cbn [Nat.add]. unfold training_data.
    rewrite (nth_indep _ (fun _ => []) (training_row features 0%nat)) by (rewrite map_length, seq_length; auto).
    rewrite map_nth, seq_nth by auto. cbn [Nat.add]. unfold training_row. rewrite Hm. reflexivity.
Qed.

End InSample.
