(** Lexicographic bin numbers (C12-C14). *)
From Coq Require Import ZArith QArith Qround List Bool Lia Lqa ZifyBool.
From Verif.Model Require Import Num LexBins.
From Verif.Spec Require Import LexSpec.
From Verif.Proofs Require Import NumFacts FnumOrder.
Import ListNotations.
Local Open Scope Z_scope.

Lemma size_pos n : shape n -> 0 < size n.
Proof. induction 1 as [|k r Hk _ IH]; cbn; nia. Qed.

Lemma size_prod n : prodZ n = size n.
Proof. reflexivity. Qed.

Lemma steps_hd n : hd 1 (bin_steps n) = size n.
Proof. induction n; cbn; auto. rewrite IHn. reflexivity. Qed.

Lemma steps_length n : length (bin_steps n) = S (length n).
Proof. induction n; cbn; auto. Qed.

Lemma steps_tl k n : tl (bin_steps (k :: n)) = bin_steps n.
Proof. reflexivity. Qed.

Lemma bin_steps_cons n : bin_steps n = size n :: tl (bin_steps n).
Proof. rewrite <- steps_hd. pose proof (steps_length n). destruct (bin_steps n); [discriminate|reflexivity]. Qed.

Lemma dot_number n : forall t, length t = length n -> dot t (tl (bin_steps n)) = number n t.
Proof.
  induction n as [|k r IH]; intros [|i ts] H; cbn in H; try discriminate; auto.
  rewrite steps_tl, bin_steps_cons. cbn [dot number]. rewrite IH by lia. lia.
Qed.

Lemma valid_length n t : valid_tuple n t -> length t = length n.
Proof. induction 1; cbn; auto. Qed.

Lemma number_range n t : valid_tuple n t -> 0 <= number n t < size n.
Proof.
  induction 1 as [|k i r ts Hk _ IH]; cbn; [lia|]. 
  assert (0 < k) by lia. nia.
Qed.

Lemma number_lex n : forall t s, valid_tuple n t -> valid_tuple n s ->
  (lex_lt t s <-> number n t < number n s).
Proof.
  induction n as [|k r IH]; intros t s Ht Hs; inversion Ht; inversion Hs; subst.
  - split; [inversion 1|cbn; lia].
  - rename l' into ts, l'0 into ss. rename y into a, y0 into b.
    assert (Rt : 0 <= number r ts < size r) by (apply number_range; auto).
    assert (Rs : 0 <= number r ss < size r) by (apply number_range; auto).
    cbn [number]. split.
    + inversion 1; subst; [nia|]. apply Z.add_lt_mono_l. apply IH; auto.
    + intro H. destruct (Z.lt_trichotomy a b) as [L|[->|L]].
      * apply lex_here; auto. rewrite (valid_length r ts), (valid_length r ss); auto.
      * apply lex_there. apply IH; auto. lia.
      * nia.
Qed.

Lemma number_injective n : forall t s, valid_tuple n t -> valid_tuple n s -> number n t = number n s -> t = s.
Proof.
  induction n as [|k r IH]; intros t s Ht Hs E; inversion Ht; inversion Hs; subst; auto.
  rename l' into ts, l'0 into ss. rename y into a, y0 into b. cbn [number] in E.
  assert (Rt : 0 <= number r ts < size r) by (apply number_range; auto).
  assert (Rs : 0 <= number r ss < size r) by (apply number_range; auto).
  assert (a = b) by nia. subst. f_equal. apply IH; auto. lia.
Qed.

(** The tuple with a given number. *)
Fixpoint digits (n : list Z) (k : Z) : list Z :=
  match n with
  | [] => []
  | m :: r => (k / size r) mod m :: digits r (k mod size r)
  end.

Lemma digits_valid n : shape n -> forall k, valid_tuple n (digits n k).
Proof.
  induction 1 as [|m r Hm _ IH]; intro k; cbn; constructor; [apply Z.mod_pos_bound; auto|apply IH].
Qed.

Lemma number_digits n : shape n -> forall k, 0 <= k < size n -> number n (digits n k) = k.
Proof.
  induction 1 as [|m r Hm Hr IH]; intros k Hk; cbn [size number digits] in *; [lia|].
  pose proof (size_pos r Hr) as P.
  rewrite IH by (apply Z.mod_pos_bound; auto).
  rewrite Z.mod_small.
  - rewrite (Z.div_mod k (size r)) at 3 by lia. lia.
  - split; [apply Z.div_pos; lia|]. apply Z.div_lt_upper_bound; lia.
Qed.

(** ** arange_multi *)
Lemma column_blocks_length b : forall stop step k, length (column_blocks b stop step k) = (b * Z.to_nat step)%nat.
Proof. induction b; intros; cbn; auto. rewrite app_length, repeat_length, IHb. reflexivity. Qed.

Lemma column_blocks_nth : forall b stop step k i, 0 < stop -> 0 < step -> 0 <= k < stop ->
  (i < b * Z.to_nat step)%nat ->
  nth i (column_blocks b stop step k) 0 = (k + Z.of_nat i / step) mod stop.
Proof.
  induction b as [|b IH]; intros stop step k i H1 H2 H3 Hi; [lia|]. cbn [column_blocks].
  destruct (Nat.ltb_spec i (Z.to_nat step)).
  - rewrite app_nth1 by (rewrite repeat_length; auto).
    rewrite Z.div_small by lia. rewrite Z.add_0_r, Z.mod_small by lia.
    clear -H. revert H. generalize (Z.to_nat step). intros m. revert i. induction m; intros i H; [lia|].
    destruct i; cbn; auto. apply IHm. lia.
  - rewrite app_nth2 by (rewrite repeat_length; auto). rewrite repeat_length.
    assert (Ei : Z.of_nat i / step = Z.of_nat (i - Z.to_nat step) / step + 1).
    { replace (Z.of_nat i) with (Z.of_nat (i - Z.to_nat step) + 1 * step) by lia.
      rewrite Z.div_add by lia. reflexivity. }
    rewrite Ei.
    assert (Hi' : (i - Z.to_nat step < b * Z.to_nat step)%nat) by (cbn in Hi; lia).
    destruct (stop <=? k + 1) eqn:E.
    + rewrite IH by (auto; lia). replace k with (stop - 1) by lia.
      replace (stop - 1 + (Z.of_nat (i - Z.to_nat step) / step + 1)) with
        (0 + Z.of_nat (i - Z.to_nat step) / step + 1 * stop) by lia.
      rewrite Z.mod_add by lia. reflexivity.
    + rewrite IH by (auto; lia). f_equal. lia.
Qed.

Lemma range_length_exact total step : 0 < step -> (total mod step = 0)%Z -> 0 <= total ->
  (range_length total step * Z.to_nat step)%nat = Z.to_nat total.
Proof.
  intros H1 H2 H3. unfold range_length.
  assert (E : total = step * (total / step)) by (rewrite (Z.div_mod total step) at 1 by lia; lia).
  assert (D : 0 <= total / step) by (apply Z.div_pos; lia).
  replace ((total + step - 1) / step) with (total / step).
  - rewrite E at 2. rewrite Z2Nat.inj_mul by lia. lia.
  - apply Z.div_unique with (step - 1); [lia|]. lia.
Qed.

Lemma arange_columns_nth total : forall stops i, shape stops -> 0 < total -> total mod size stops = 0 ->
  (Z.of_nat i < total) ->
  map (fun c => nth i c 0) (arange_columns total stops (tl (bin_steps stops))) = digits stops (Z.of_nat i).
Proof.
  induction stops as [|n r IH]; intros i Hs Ht Hd Hi; [reflexivity|].
  inversion Hs; subst. pose proof (size_pos r H2) as P.
  rewrite steps_tl, bin_steps_cons. cbn [arange_columns map digits].
  cbn [size] in Hd.
  assert (Dr : total mod size r = 0).
  { apply Z.mod_divide in Hd; [|nia]. apply Z.mod_divide; [lia|].
    destruct Hd as [q Hq]. exists (q * n). lia. }
  f_equal.
  - rewrite column_blocks_nth; try lia.
    + rewrite Z.add_0_l. reflexivity.
    + rewrite range_length_exact; lia.
  - rewrite IH; auto. clear IH.
    (* digits of i only depend on i mod size r *)
    clear -H2 P. revert P. generalize (Z.of_nat i). intros k _.
    revert k. induction H2 as [|m s Hm Hs IH]; intro k; [reflexivity|].
    cbn [digits size]. pose proof (size_pos s Hs) as Ps.
    f_equal.
    + rewrite (Z.mul_comm m), Z.rem_mul_r by lia.
      rewrite (Z.mul_comm (size s)), Z.div_add by lia.
      rewrite (Z.div_small (k mod size s)) by (apply Z.mod_pos_bound; auto). rewrite Z.add_0_l, Z.mod_mod by lia. reflexivity.
    + rewrite (Z.mul_comm m), Z.rem_mul_r by lia.
      rewrite (Z.mul_comm (size s)), Z.mod_add by lia. rewrite Z.mod_mod by lia. reflexivity.
Qed.

Lemma arange_multi_rows n : shape n ->
  arange_multi n = map (fun i => digits n (Z.of_nat i)) (seq 0 (Z.to_nat (size n))).
Proof.
  intro Hs. unfold arange_multi. rewrite steps_hd. pose proof (size_pos n Hs) as P.
  apply map_ext_in. intros i Hi. apply in_seq in Hi.
  apply arange_columns_nth; auto; [|lia].
  apply Z.mod_same. lia.
Qed.

(** ** Rows of floats *)
Lemma floor_holds x k : (exists q, x = Fin q /\ (q == inject_Z k)%Q) -> floor_of x = k.
Proof. intros (q & -> & E). cbn. rewrite E. apply Qfloor_Z. Qed.

Lemma floors_holds row t : holds_tuple row t -> map floor_of row = t.
Proof. induction 1; cbn; auto. rewrite (floor_holds x y) by auto. f_equal. auto. Qed.

Lemma holds_length row t : holds_tuple row t -> length row = length t.
Proof. induction 1; cbn; auto. Qed.

Lemma row_valid_spec n : forall row, length row = length n ->
  (row_valid n row = true <-> Forall2 (fun k x => isfinite x = true /\ fle (Fin 0) x = true /\ flt x (Fin (inject_Z k)) = true) n row).
Proof.
  unfold row_valid. induction n as [|k r IH]; intros [|x xs] H; cbn in H; try discriminate.
  - cbn. split; auto.
  - cbn [forallb in_bins]. specialize (IH xs ltac:(lia)).
    rewrite !andb_true_iff in *. unfold nonneg. split.
    + intros [[H1 H2] [[H3 H4] H5]]. constructor; auto. apply IH. auto.
    + intro F. inversion F; subst. destruct H3 as (? & ? & ?). apply IH in H5. tauto.
Qed.

Lemma holds_valid n row t : holds_tuple row t -> valid_tuple n t -> row_valid n row = true.
Proof.
  intros Hh Hv. apply row_valid_spec.
  { rewrite (holds_length _ _ Hh). apply (valid_length _ _ Hv). }
  revert row Hh. induction Hv as [|k i r ts Hk _ IH]; intros row Hh; inversion Hh; subst; constructor.
  - destruct H2 as (q & -> & E). split; auto.
    split; [apply fle_Fin; rewrite E; change 0%Q with (inject_Z 0); rewrite <- Zle_Qle; lia|].
    apply flt_Fin. rewrite E, <- Zlt_Qlt. lia.
  - apply IH. auto.
Qed.

Lemma lex_value_number n row t : holds_tuple row t -> length t = length n -> lex_value n row = number n t.
Proof. intros Hh Hl. unfold lex_value. rewrite (floors_holds _ _ Hh). apply dot_number; auto. Qed.

Lemma invalid_row_iff n row : length row = length n ->
  (invalid_row n row <-> row_valid n row = false).
Proof.
  intro Hl. split.
  - intros (i & x & k & Hx & Hk & Hb). destruct (row_valid n row) eqn:E; auto. exfalso.
    apply row_valid_spec in E; auto. revert i Hx Hk.
    induction E as [|k' x' ns xs H _ IH]; intros [|i] Hx Hk; try discriminate; cbn in Hl, Hx, Hk.
    + injection Hx as ->. injection Hk as ->. destruct H as (H1 & H2 & H3).
      destruct Hb as [Hb|[Hb|Hb]]; [congruence| |].
      * apply flt_iff in Hb. destruct Hb as (_ & _ & Hb). congruence.
      * apply flt_iff in H3. destruct H3 as (_ & _ & H3). congruence.
    + apply (IH ltac:(lia) i); auto.
  - intro E. revert row Hl E. induction n as [|k r IH]; intros [|x xs] Hl E; cbn in Hl; try discriminate.
    destruct (isfinite x) eqn:Ef.
    2:{ exists 0%nat, x, k. split; auto. split; auto. left; auto. }
    destruct (fle (Fin 0) x) eqn:E0.
    2:{ exists 0%nat, x, k. split; auto. split; auto. right; left. apply not_fle_lt; auto; [discriminate|destruct x; discriminate]. }
    destruct (flt x (Fin (inject_Z k))) eqn:E1.
    2:{ exists 0%nat, x, k. split; auto. split; auto. right; right.
        destruct (fle (Fin (inject_Z k)) x) eqn:E2; auto.
        assert (flt x (Fin (inject_Z k)) = true) by (apply flt_iff; repeat split; auto; try discriminate; destruct x; discriminate).
        congruence. }
    destruct (IH xs ltac:(lia)) as (i & x' & k' & H1 & H2 & H3).
    { unfold row_valid in *. cbn [forallb in_bins] in E. rewrite Ef in E. unfold nonneg in E. rewrite E0, E1 in E. exact E. }
    exists (S i), x', k'. auto.
Qed.

Definition rows_of (n : list Z) (rows : list (list fnum)) : Prop := forall r, In r rows -> length r = length n.

Lemma lex_binnos_nth M n rows i row : nth_error rows i = Some row ->
  nth_error (fst (lexicographic_binnos M rows (Some n))) i =
  Some (if row_valid n row then lex_value n row else if existsb (row_valid n) rows then prodZ n else 0).
Proof. intro H. unfold lexicographic_binnos. cbn [fst]. rewrite nth_error_map, H. reflexivity. Qed.

Lemma lex_valid_number M n rows i row t :
  nth_error rows i = Some row -> holds_tuple row t -> valid_tuple n t ->
  nth_error (fst (lexicographic_binnos M rows (Some n))) i = Some (number n t).
Proof.
  intros Hi Hh Hv. rewrite (lex_binnos_nth M n rows i row Hi), (holds_valid n row t Hh Hv).
  rewrite (lex_value_number n row t Hh (valid_length _ _ Hv)). reflexivity.
Qed.

Lemma lex_in_range M n rows i row t :
  nth_error rows i = Some row -> holds_tuple row t -> valid_tuple n t ->
  exists k, nth_error (fst (lexicographic_binnos M rows (Some n))) i = Some k /\ 0 <= k < size n.
Proof. intros. exists (number n t). split; [eapply lex_valid_number; eauto|apply number_range; auto]. Qed.

Lemma lex_order M n rows i j row row' t t' k k' :
  nth_error rows i = Some row -> holds_tuple row t -> valid_tuple n t ->
  nth_error rows j = Some row' -> holds_tuple row' t' -> valid_tuple n t' ->
  nth_error (fst (lexicographic_binnos M rows (Some n))) i = Some k ->
  nth_error (fst (lexicographic_binnos M rows (Some n))) j = Some k' ->
  (lex_lt t t' <-> k < k') /\ (k = k' -> t = t').
Proof.
  intros Hi Hh Hv Hj Hh' Hv' Ek Ek'.
  rewrite (lex_valid_number M n rows i row t) in Ek by auto.
  rewrite (lex_valid_number M n rows j row' t') in Ek' by auto.
  injection Ek as <-. injection Ek' as <-. split; [apply number_lex; auto|apply number_injective; auto].
Qed.

Lemma arange_multi_numbers n : shape n ->
  Z.of_nat (length (arange_multi n)) = size n /\
  forall k t, nth_error (arange_multi n) k = Some t ->
    valid_tuple n t /\
    forall M rows i row, nth_error rows i = Some row -> holds_tuple row t ->
      nth_error (fst (lexicographic_binnos M rows (Some n))) i = Some (Z.of_nat k).
Proof.
  intro Hs. pose proof (size_pos n Hs) as P. rewrite (arange_multi_rows n Hs).
  split; [rewrite map_length, seq_length; lia|].
  intros k t Hk. rewrite nth_error_map in Hk.
  destruct (nth_error (seq 0 (Z.to_nat (size n))) k) as [m|] eqn:Em; [|discriminate].
  cbn in Hk. injection Hk as <-.
  assert (Lk : (k < Z.to_nat (size n))%nat).
  { rewrite <- (seq_length (Z.to_nat (size n)) 0). apply nth_error_Some. congruence. }
  assert (m = k).
  { rewrite (nth_error_nth' _ 0%nat) in Em by (rewrite seq_length; auto). rewrite seq_nth in Em by auto. injection Em. auto. }
  subst m. pose proof (digits_valid n Hs (Z.of_nat k)) as V.
  split; auto. intros M rows i row Hi Hh.
  rewrite (lex_valid_number M n rows i row _ Hi Hh V). f_equal. apply number_digits; auto. lia.
Qed.

(** ** C13 *)
Lemma invalid_to_missing M n rows i row :
  (exists r, In r rows /\ length r = length n /\ ~ invalid_row n r) ->
  nth_error rows i = Some row -> length row = length n -> invalid_row n row ->
  nth_error (fst (lexicographic_binnos M rows (Some n))) i = Some (size n).
Proof.
  intros (r & Hr & Hl & Hv) Hi Hli Hinv.
  rewrite (lex_binnos_nth M n rows i row Hi).
  apply invalid_row_iff in Hinv; auto. rewrite Hinv.
  assert (E : existsb (row_valid n) rows = true).
  { apply existsb_exists. exists r. split; auto. destruct (row_valid n r) eqn:E; auto.
    exfalso. apply Hv, invalid_row_iff; auto. }
  rewrite E, size_prod. reflexivity.
Qed.

Lemma valid_rows_batch_independent M M' n rows rows' i j row :
  nth_error rows i = Some row -> nth_error rows' j = Some row -> length row = length n -> ~ invalid_row n row ->
  nth_error (fst (lexicographic_binnos M rows (Some n))) i =
  nth_error (fst (lexicographic_binnos M' rows' (Some n))) j.
Proof.
  intros Hi Hj Hl Hv. rewrite (lex_binnos_nth M n rows i row Hi), (lex_binnos_nth M' n rows' j row Hj).
  destruct (row_valid n row) eqn:E; auto. exfalso. apply Hv, invalid_row_iff; auto.
Qed.

(** The shape determined from the data contains every usable row. *)
Definition dominates (m x : fnum) : Prop := isfinite m = true /\ fle x m = true.

Lemma col_max_dom a b : Forall (fun x => isfinite x = true) a -> Forall (fun x => isfinite x = true) b ->
  length a = length b -> Forall2 dominates (col_max a b) a /\ Forall2 dominates (col_max a b) b /\
  Forall (fun x => isfinite x = true) (col_max a b) /\ length (col_max a b) = length a.
Proof.
  intro Ha. revert b. induction Ha as [|x a Hx Ha IH]; intros [|y b] Hb Hl; cbn in Hl; try discriminate.
  - cbn. auto.
  - inversion Hb; subst. destruct (IH b H2 ltac:(lia)) as (I1 & I2 & I3 & I4). cbn [col_max].
    assert (Nx : x <> NaN) by (destruct x; discriminate). assert (Ny : y <> NaN) by (destruct y; discriminate).
    destruct (fle x y) eqn:E; (split; [|split; [|split]]); cbn [length]; try lia; constructor; auto;
      split; auto; try (apply fle_refl; auto). apply fle_total; auto.
Qed.

Lemma dom_trans a b c : Forall2 dominates a b -> Forall2 dominates b c -> Forall2 dominates a c.
Proof.
  intro H. revert c. induction H as [|x y a b [Hx Hxy] _ IH]; intros c Hc; inversion Hc; subst; constructor; auto.
  destruct H1 as [_ H1]. split; auto. eapply fle_trans; eauto.
Qed.

Lemma fold_col_max M rs : forall r, Forall (fun x => isfinite x = true) r -> length r = M ->
  (forall s, In s rs -> Forall (fun x => isfinite x = true) s /\ length s = M) ->
  Forall2 dominates (fold_left col_max rs r) r /\ (forall s, In s rs -> Forall2 dominates (fold_left col_max rs r) s).
Proof.
  induction rs as [|s rs IH]; intros r Hr Hl H; cbn [fold_left].
  - split; [|contradiction]. clear -Hr. induction Hr; constructor; auto. split; auto. apply fle_refl. destruct x; discriminate.
  - destruct (H s (or_introl eq_refl)) as [Hs Hls].
    destruct (col_max_dom r s Hr Hs ltac:(lia)) as (C1 & C2 & C3 & C4).
    destruct (IH (col_max r s) C3 ltac:(lia)) as [I1 I2]; [intros; apply H; right; auto|].
    split; [eapply dom_trans; eauto|].
    intros s' [<-|Hs']; [eapply dom_trans; eauto|auto].
Qed.

Lemma data_rows_valid M rows row :
  (forall r, In r rows -> length r = M) -> In row rows -> row_finite_semi_positive row = true ->
  row_valid (data_n_bins M rows) row = true.
Proof.
  intros Hl Hin Hf. unfold data_n_bins.
  assert (Hin' : In row (filter row_finite_semi_positive rows)) by (apply filter_In; auto).
  assert (Hall : forall r, In r (filter row_finite_semi_positive rows) ->
     Forall (fun x => isfinite x = true) r /\ length r = M).
  { intros r Hr. apply filter_In in Hr. destruct Hr as [Hr E]. split; auto.
    unfold row_finite_semi_positive in E. apply andb_prop in E. destruct E as [E _].
    apply Forall_forall. intros x Hx. rewrite forallb_forall in E. auto. }
  destruct (filter row_finite_semi_positive rows) as [|r rs]; [contradiction|].
  destruct (Hall r (or_introl eq_refl)) as [Hr Hlr].
  destruct (fold_col_max M rs r Hr Hlr) as [D1 D2]; [intros; apply Hall; right; auto|].
  assert (D : Forall2 dominates (fold_left col_max rs r) row) by (destruct Hin' as [<-|Hin']; auto).
  clear -D Hf. unfold row_finite_semi_positive in Hf. apply andb_prop in Hf. destruct Hf as [F1 F2].
  unfold row_valid. rewrite F1. cbn [andb]. clear F1.
  induction D as [|m x ms xs [Hm Hxm] _ IH]; cbn in *; auto.
  apply andb_prop in F2. destruct F2 as [F2 F3]. rewrite F2, IH by auto. cbn. rewrite andb_true_r.
  destruct m as [m| | |]; try discriminate. destruct x as [x| | |]; try discriminate.
  apply fle_Fin in Hxm. apply flt_Fin. cbn [floor_of]. rewrite inject_Z_plus.
  pose proof (Qlt_floor m). rewrite inject_Z_plus in H. lra.
Qed.

Lemma shape_from_data M rows row :
  (forall r, In r rows -> length r = M) -> In row rows -> ~ missing_entry row ->
  ~ invalid_row (snd (lexicographic_binnos M rows None)) row.
Proof.
  intros Hl Hin Hm. cbn [lexicographic_binnos snd].
  assert (Hf : row_finite_semi_positive row = true).
  { unfold row_finite_semi_positive. apply andb_true_intro.
    assert (G : forall x, In x row -> isfinite x = true /\ nonneg x = true).
    { intros x Hx. destruct (isfinite x) eqn:E; [|exfalso; apply Hm; exists x; auto].
      split; auto. destruct (nonneg x) eqn:E2; auto. exfalso. apply Hm. exists x. split; auto. right.
      apply not_fle_lt; auto; [discriminate|destruct x; discriminate]. }
    split; apply forallb_forall; intros x Hx; apply G; auto. }
  pose proof (data_rows_valid M rows row Hl Hin Hf) as V.
  intro Hinv. apply invalid_row_iff in Hinv; [congruence|].
  assert (Hlen : length (data_n_bins M rows) = M).
  { clear -Hl. unfold data_n_bins.
    assert (Hall : forall r, In r (filter row_finite_semi_positive rows) -> length r = M).
    { intros r Hr. apply filter_In in Hr. apply Hl. tauto. }
    destruct (filter row_finite_semi_positive rows) as [|r rs]; [apply repeat_length|].
    rewrite map_length.
    assert (L : forall rs r, length r = M -> (forall s, In s rs -> length s = M) -> length (fold_left col_max rs r) = M).
    { clear. induction rs as [|s rs IH]; intros r Hr H; cbn; auto. apply IH; [|intros; apply H; right; auto].
      pose proof (H s (or_introl eq_refl)) as Hs. clear -Hr Hs. revert s M Hr Hs.
      induction r as [|x r IH]; intros [|y s] M Hr Hs; cbn in *; auto; try lia.
      destruct M; [discriminate|]. f_equal. apply IH; lia. }
    apply L; [apply Hall; left; auto|intros; apply Hall; right; auto]. }
  rewrite Hlen. apply Hl; auto.
Qed.

(** ** C14 *)
Lemma get_all_nth l idx : (forall i, In i idx -> 0 <= i < Z.of_nat (length l)) ->
  exists r, get_all l idx = Some r /\ length r = length idx /\
    forall i k, nth_error idx i = Some k -> nth_error r i = nth_error l (Z.to_nat k).
Proof.
  induction idx as [|k idx IH]; intro H; cbn.
  - exists []. split; auto. split; auto. intros [|i]; discriminate.
  - destruct (pyget_some l k) as [v [-> Hv]]; [apply H; left; auto|].
    destruct IH as (r & -> & Hl & Hr); [intros; apply H; right; auto|].
    exists (v :: r). split; auto. split; [cbn; lia|]. intros [|i] k' E; cbn in *; auto.
    injection E as <-. congruence.
Qed.

Lemma np_round_int x k : (exists q, x = Fin q /\ (q == inject_Z k)%Q) -> np_round x = k.
Proof.
  intros (q & -> & E). unfold np_round.
  assert (F : Qfloor (q + (1#2)) = k).
  { rewrite E. assert (A : (inject_Z k <= inject_Z k + (1#2))%Q) by lra.
    pose proof (Qfloor_resp_le _ _ A) as B. rewrite Qfloor_Z in B.
    pose proof (Qfloor_le (inject_Z k + (1#2))) as C.
    assert (D : (inject_Z (Qfloor (inject_Z k + (1#2))) < inject_Z (k + 1))%Q).
    { rewrite inject_Z_plus. change (inject_Z 1) with 1%Q. lra. }
    rewrite <- Zlt_Qlt in D. lia. }
  rewrite F. destruct (Qeq_bool (q + (1 # 2)) (inject_Z k)) eqn:G; auto.
  apply Qeq_bool_iff in G. rewrite E in G. exfalso. lra.
Qed.

Lemma semi_positive_iff row : row_finite_semi_positive row = false <-> missing_entry row.
Proof.
  unfold row_finite_semi_positive, missing_entry. split.
  - intro H. apply andb_false_iff in H. destruct H as [H|H].
    + induction row as [|x r IH]; cbn in H; [discriminate|]. destruct (isfinite x) eqn:E.
      * destruct IH as (y & Hy & G); auto. exists y. split; [right; auto|auto].
      * exists x. split; [left; auto|auto].
    + induction row as [|x r IH]; cbn [forallb] in H; [discriminate|]. destruct (nonneg x) eqn:E.
      * destruct IH as (y & Hy & G); auto. exists y. split; [right; auto|auto].
      * exists x. split; [left; auto|]. destruct (isfinite x) eqn:F; auto. right.
        apply not_fle_lt; auto; [discriminate|destruct x; discriminate].
  - intros (x & Hx & H). apply andb_false_iff. destruct H as [H|H].
    + left. apply not_true_iff_false. intro G. rewrite forallb_forall in G. specialize (G x Hx). congruence.
    + right. apply not_true_iff_false. intro G. rewrite forallb_forall in G. specialize (G x Hx).
      apply flt_iff in H. unfold nonneg in G. destruct H as (_ & _ & H). congruence.
Qed.

Lemma combine_map_snd {A B} (f : A -> B) l : combine l (map f l) = map (fun x => (x, f x)) l.
Proof. induction l; cbn; [|rewrite IHl]; auto. Qed.

(** The index looked up for a row. *)
Definition event_index (M : nat) (n : list Z) (any : bool) (row : list fnum) : Z :=
  let k := if Nat.ltb 1 M then (if row_valid n row then lex_value n row else if any then prodZ n else 0)
           else np_round (hd NaN row) in
  if negb (row_finite_semi_positive row) || (prodZ n <? k) then prodZ n else k.

Lemma not_seen_unfold M rows wx n :
  not_seen_events M rows wx n =
  get_all (let b := map (fun w => Qeq_bool w 0) wx in
           if Z.of_nat (length b) =? prodZ n then b ++ [true] else b)
          (map (event_index M n (existsb (row_valid n) rows)) rows).
Proof.
  unfold not_seen_events, event_index. cbv zeta. f_equal.
  destruct (Nat.ltb 1 M); cbn [lexicographic_binnos fst]; rewrite combine_map_snd, map_map; reflexivity.
Qed.

Lemma unseen_nth n wx k b : shape n -> weights_for n wx -> 0 <= k <= size n ->
  nth_error (let b := map (fun w => Qeq_bool w 0) wx in
             if Z.of_nat (length b) =? prodZ n then b ++ [true] else b) (Z.to_nat k) = Some b ->
  (b = true <-> unseen wx k).
Proof.
  intros Hs Hw Hk Hb. rewrite size_prod in Hb. cbv zeta in Hb. rewrite map_length in Hb. unfold unseen.
  destruct (Z.of_nat (length wx) =? size n) eqn:E.
  - destruct (Nat.ltb_spec (Z.to_nat k) (length wx)).
    + rewrite nth_error_app1 in Hb by (rewrite map_length; auto). rewrite nth_error_map in Hb.
      destruct (nth_error wx (Z.to_nat k)) as [w|] eqn:Ew; [|discriminate]. cbn in Hb. injection Hb as <-.
      apply Qeq_bool_iff.
    + rewrite nth_error_app2 in Hb by (rewrite map_length; auto). rewrite map_length in Hb.
      replace (Z.to_nat k - length wx)%nat with 0%nat in Hb by lia. cbn in Hb. injection Hb as <-.
      destruct (nth_error wx (Z.to_nat k)) eqn:Ew; [|tauto].
      assert (Z.to_nat k < length wx)%nat by (apply nth_error_Some; congruence). lia.
  - rewrite nth_error_map in Hb.
    destruct (nth_error wx (Z.to_nat k)) as [w|] eqn:Ew; [|discriminate]. cbn in Hb. injection Hb as <-.
    apply Qeq_bool_iff.
Qed.

Lemma event_index_range M n any row : shape n -> length row = length n -> length n = M ->
  (M = 1%nat -> isfinite (hd NaN row) = true -> fle (Fin 0) (hd NaN row) = true ->
     0 <= np_round (hd NaN row)) ->
  0 <= event_index M n any row <= size n.
Proof.
  intros Hs Hl HM H1. pose proof (size_pos n Hs) as P. unfold event_index. rewrite size_prod.
  destruct (row_finite_semi_positive row) eqn:Ef; cbn [negb orb]; [|lia].
  destruct (Nat.ltb 1 M) eqn:EM.
  - destruct (row_valid n row) eqn:Ev.
    + assert (V : 0 <= lex_value n row < size n).
      { apply row_valid_spec in Ev; auto. unfold lex_value.
        assert (VT : valid_tuple n (map floor_of row)).
        { clear -Ev. induction Ev as [|k x ns xs (H1 & H2 & H3) _ IH]; constructor; auto.
          destruct x as [q| | |]; try discriminate. apply fle_Fin in H2. apply flt_Fin in H3. cbn.
          split.
          - apply Qfloor_resp_le in H2. cbn in H2. exact H2.
          - pose proof (Qfloor_le q). assert (inject_Z (Qfloor q) < inject_Z k)%Q by lra.
            rewrite <- Zlt_Qlt in H0. exact H0. }
        rewrite dot_number by (rewrite map_length; auto). apply number_range; auto. }
      destruct (size n <? lex_value n row) eqn:E; lia.
    + destruct any; destruct (_ <? _) eqn:E; lia.
  - destruct n as [|k [|k' n']]; cbn in HM; [|..].
    + destruct row; [|discriminate]. cbn. destruct (size [] <? 0) eqn:E; lia.
    + destruct row as [|x [|y r]]; try discriminate. cbn [hd].
      assert (Hx : isfinite x = true /\ fle (Fin 0) x = true).
      { unfold row_finite_semi_positive in Ef. cbn in Ef. rewrite !andb_true_r in Ef.
        apply andb_prop in Ef. exact Ef. }
      specialize (H1 ltac:(lia) (proj1 Hx) (proj2 Hx)). cbn [hd] in H1. destruct (_ <? _) eqn:E; lia.
    + apply Nat.ltb_ge in EM. cbn in *. lia.
Qed.

Lemma np_round_nonneg q : (0 <= q)%Q -> 0 <= np_round (Fin q).
Proof.
  intro H. unfold np_round.
  assert (A : (0 <= q + (1#2))%Q) by lra. apply Qfloor_resp_le in A. change (Qfloor 0) with 0 in A.
  destruct (Qeq_bool _ _ && Z.odd _) eqn:E; [|exact A].
  apply andb_prop in E. destruct E as [_ E].
  destruct (Z.eq_dec (Qfloor (q + (1#2))) 0) as [E0|]; [rewrite E0 in E; discriminate|lia].
Qed.

Lemma mask_total M rows wx n :
  shape n -> weights_for n wx -> length n = M -> (forall r, In r rows -> length r = M) ->
  exists l, not_seen_events M rows wx n = Some l /\ length l = length rows /\
    forall i row b, nth_error rows i = Some row -> nth_error l i = Some b ->
      (b = true <-> unseen wx (event_index M n (existsb (row_valid n) rows) row)).
Proof.
  intros Hs Hw HM Hr. rewrite not_seen_unfold.
  assert (Hrange : forall row, In row rows -> 0 <= event_index M n (existsb (row_valid n) rows) row <= size n).
  { intros row Hin. apply event_index_range; auto; [rewrite HM; auto|].
    intros _ F1 F2. destruct (hd NaN row) as [q| | |]; try discriminate. apply np_round_nonneg. apply fle_Fin; auto. }
  destruct (get_all_nth (let b := map (fun w => Qeq_bool w 0) wx in
           if Z.of_nat (length b) =? prodZ n then b ++ [true] else b)
          (map (event_index M n (existsb (row_valid n) rows)) rows)) as (l & Hl & Hlen & Hn).
  { intros k Hk. apply in_map_iff in Hk. destruct Hk as (row & <- & Hin). specialize (Hrange row Hin).
    rewrite size_prod. cbv zeta. rewrite map_length.
    destruct (Z.of_nat (length wx) =? size n) eqn:E; rewrite ?app_length, map_length; cbn [length];
      destruct Hw as [Hw|Hw]; lia. }
  exists l. split; auto. rewrite map_length in Hlen. split; auto.
  intros i row b Hi Hb. specialize (Hn i (event_index M n (existsb (row_valid n) rows) row)).
  rewrite nth_error_map, Hi in Hn. specialize (Hn eq_refl). rewrite Hb in Hn.
  apply (unseen_nth n wx _ b Hs Hw); auto. apply Hrange. eapply nth_error_In; eauto.
Qed.

Lemma holds_semi_positive n row t : holds_tuple row t -> valid_tuple n t -> row_finite_semi_positive row = true.
Proof.
  intros Hh Hv. pose proof (holds_valid n row t Hh Hv) as E.
  apply row_valid_spec in E; [|rewrite (holds_length _ _ Hh); apply (valid_length _ _ Hv)].
  unfold row_finite_semi_positive. clear -E. induction E as [|k x ns xs (H1 & H2 & H3) _ IH]; auto.
  cbn [forallb]. apply andb_prop in IH. destruct IH as [I1 I2]. fold (nonneg x) in H2. rewrite H1, H2, I1, I2. reflexivity.
Qed.

Lemma mask_valid M rows wx n :
  shape n -> weights_for n wx -> length n = M -> (1 <= M)%nat -> (forall r, In r rows -> length r = M) ->
  exists l, not_seen_events M rows wx n = Some l /\ length l = length rows /\
    (forall i row t b, nth_error rows i = Some row -> nth_error l i = Some b ->
      holds_tuple row t -> valid_tuple n t -> (b = true <-> unseen wx (number n t))) /\
    (forall i row b, nth_error rows i = Some row -> nth_error l i = Some b ->
      missing_entry row -> (b = true <-> unseen wx (size n))) /\
    (forall i row t b, nth_error rows i = Some row -> nth_error l i = Some b ->
      holds_tuple row t -> invalid_row n row ->
      (M = 1%nat \/ exists r, In r rows /\ ~ invalid_row n r) -> (b = true <-> unseen wx (size n))).
Proof.
  intros Hs Hw HM HM1 Hr. pose proof (size_pos n Hs) as P.
  destruct (mask_total M rows wx n Hs Hw HM Hr) as (l & Hl & Hlen & Hn).
  exists l. split; auto. split; auto. split; [|split].
  - intros i row t b Hi Hb Hh Hv.
    replace (number n t) with (event_index M n (existsb (row_valid n) rows) row); [apply (Hn i); auto|].
    pose proof (number_range n t Hv) as Rg. unfold event_index.
    rewrite (holds_semi_positive n row t Hh Hv). cbn [negb orb]. rewrite size_prod.
    assert (E : (if Nat.ltb 1 M then (if row_valid n row then lex_value n row else if existsb (row_valid n) rows then size n else 0)
           else np_round (hd NaN row)) = number n t).
    { destruct (Nat.ltb 1 M) eqn:EM.
      - rewrite (holds_valid n row t Hh Hv). apply lex_value_number; auto. apply valid_length; auto.
      - apply Nat.ltb_ge in EM. destruct n as [|k [|k' n']]; cbn in HM; try lia.
        pose proof (valid_length _ _ Hv) as Lt. destruct t as [|a [|a' t']]; cbn in Lt; try lia.
        inversion Hh as [|x a0 r0 t0 Hx _]; subst.
        cbn [hd]. rewrite (np_round_int x a) by auto. cbn. lia. }
    rewrite E. destruct (_ <? _) eqn:L; lia.
  - intros i row b Hi Hb Hm.
    replace (size n) with (event_index M n (existsb (row_valid n) rows) row); [apply (Hn i); auto|].
    apply semi_positive_iff in Hm. unfold event_index. rewrite Hm. reflexivity.
  - intros i row t b Hi Hb Hh Hinv Hor.
    replace (size n) with (event_index M n (existsb (row_valid n) rows) row); [apply (Hn i); auto|].
    assert (Lr : length row = length n) by (rewrite HM; apply Hr; eapply nth_error_In; eauto).
    pose proof (proj1 (invalid_row_iff n row Lr) Hinv) as Ev.
    unfold event_index. rewrite Ev, size_prod.
    destruct (row_finite_semi_positive row) eqn:Ef; cbn [negb orb]; auto.
    destruct Hor as [-> | (r & Hin & Hvr)].
    + cbn [Nat.ltb Nat.leb]. destruct n as [|k [|k' n']]; cbn in HM; try lia.
      destruct row as [|x [|y r]]; try (cbn in Lr; lia). cbn [hd].
      inversion Hh as [|x0 z r0 t0 Hx _]; subst. rewrite (np_round_int x z) by auto.
      destruct Hx as (q & -> & Eq). unfold row_valid in Ev. cbn in Ev.
      unfold row_finite_semi_positive in Ef. cbn in Ef. rewrite !andb_true_r in *.
      unfold nonneg in *. rewrite Ef in Ev. cbn [andb] in Ev.
      assert (k <= z).
      { destruct (Z.lt_ge_cases z k); [|lia]. exfalso. apply not_true_iff_false in Ev. apply Ev, flt_Fin.
        rewrite Eq, <- Zlt_Qlt. auto. }
      cbn [size] in *. destruct (_ <? _) eqn:L; lia.
    + assert (Ea : existsb (row_valid n) rows = true).
      { apply existsb_exists. exists r. split; auto. destruct (row_valid n r) eqn:E; auto.
        exfalso. apply Hvr, invalid_row_iff; auto. rewrite (Hr r Hin). auto. }
      rewrite Ea. destruct (Nat.ltb 1 M) eqn:EM; [destruct (_ <? _) eqn:L; lia|].
      apply Nat.ltb_ge in EM. destruct n as [|k [|k' n']]; cbn in HM; try lia.
      destruct row as [|x [|y r']]; try (cbn in Lr; lia). cbn [hd].
      inversion Hh as [|x0 z r0 t0 Hx _]; subst. rewrite (np_round_int x z) by auto.
      destruct Hx as (q & -> & Eq). unfold row_valid in Ev. cbn in Ev.
      unfold row_finite_semi_positive in Ef. cbn in Ef. rewrite !andb_true_r in *.
      unfold nonneg in *. rewrite Ef in Ev. cbn [andb] in Ev.
      assert (k <= z).
      { destruct (Z.lt_ge_cases z k); [|lia]. exfalso. apply not_true_iff_false in Ev. apply Ev, flt_Fin.
        rewrite Eq, <- Zlt_Qlt. auto. }
      cbn [size] in *. destruct (_ <? _) eqn:L; lia.
Qed.
