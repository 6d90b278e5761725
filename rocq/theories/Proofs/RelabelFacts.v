(** Renumbering the categories of the columns. *)
From Coq Require Import ZArith QArith Qround List Bool Reals Lra Lia Permutation FinFun.
From Verif.Model Require Import Num LexBins Train Predict Link Estimators Gbs Regularize WholeFit BinSmoothers.
From Verif.Spec Require Import LexSpec PredictSpec RelabelSpec.
From Verif.Proofs Require Import FnumOrder LexFacts TrainFacts PredictFacts ChainFacts Simulation OrderFacts RenumberFacts.
Import ListNotations.
Local Open Scope R_scope.

(** ** Tuples *)
Definition labels (T : list (Z -> Z)) (t : list Z) : list Z := map2 (fun f z => f z) T t.

Lemma labels_valid n T : Forall2 permutes n T -> forall t, valid_tuple n t -> valid_tuple n (labels T t).
Proof.
  induction 1 as [|k f n T P _ IH]; intros t V; inversion V; subst; cbn; constructor.
  - apply P. auto.
  - apply IH. auto.
Qed.
Lemma labels_injective n T : Forall2 permutes n T -> forall t s, valid_tuple n t -> valid_tuple n s ->
  labels T t = labels T s -> t = s.
Proof.
  induction 1 as [|k f n T P _ IH]; intros t s V W E; inversion V; subst; inversion W; subst; auto.
  cbn in E. injection E as E1 E2. f_equal; [|apply IH; auto].
  destruct P as (_ & _ & u & U). destruct (U y ltac:(auto)) as (_ & _ & <-). destruct (U y0 ltac:(auto)) as (_ & _ & <-). congruence.
Qed.
Lemma labels_zero n T : Forall2 permutes n T -> Forall (fun f => f 0%Z = 0%Z) T -> number n (labels T (map (fun _ => 0%Z) n)) = 0%Z.
Proof.
  induction 1 as [|k f n T P _ IH]; intro Z0; [reflexivity|]. inversion Z0; subst.
  change (labels (f :: T) (map (fun _ => 0%Z) (k :: n))) with (f 0%Z :: labels T (map (fun _ => 0%Z) n)).
  cbn [number]. rewrite H1, IH by auto. lia.
Qed.
Lemma number_zero n : number n (map (fun _ => 0%Z) n) = 0%Z.
Proof. induction n; cbn; auto. Qed.
Lemma zero_valid n : shape n -> valid_tuple n (map (fun _ => 0%Z) n).
Proof. induction 1; cbn; constructor; auto. lia. Qed.
Lemma digits_number n t : shape n -> valid_tuple n t -> digits n (number n t) = t.
Proof.
  intros Sh V. apply (number_injective n); auto; [apply digits_valid; auto|]. apply number_digits; auto. apply number_range; auto.
Qed.

Definition sigma_of (n : list Z) (T : list (Z -> Z)) (k : nat) : nat :=
  if Nat.ltb k (Z.to_nat (size n)) then Z.to_nat (number n (labels T (digits n (Z.of_nat k)))) else k.

Lemma sigma_number n T t : shape n -> valid_tuple n t ->
  sigma_of n T (Z.to_nat (number n t)) = Z.to_nat (number n (labels T t)).
Proof.
  intros Sh V. pose proof (number_range _ _ V). unfold sigma_of. rewrite (proj2 (Nat.ltb_lt _ _)) by lia.
  rewrite Z2Nat.id by lia. rewrite digits_number; auto.
Qed.
Lemma sigma_bijection n T : shape n -> Forall2 permutes n T -> bijection (Z.to_nat (size n)) (sigma_of n T).
Proof.
  intros Sh P.
  assert (Rg : forall k, (k < Z.to_nat (size n))%nat -> exists t, valid_tuple n t /\ k = Z.to_nat (number n t)).
  { intros k Hk. exists (digits n (Z.of_nat k)). split; [apply digits_valid; auto|]. rewrite number_digits by (auto; lia). lia. }
  assert (In1 : forall k, (k < Z.to_nat (size n))%nat -> (sigma_of n T k < Z.to_nat (size n))%nat).
  { intros k Hk. destruct (Rg k Hk) as (t & V & ->). rewrite sigma_number by auto.
    pose proof (number_range _ _ (labels_valid n T P t V)). lia. }
  assert (Out : forall k, (Z.to_nat (size n) <= k)%nat -> sigma_of n T k = k).
  { intros k Hk. unfold sigma_of. rewrite (proj2 (Nat.ltb_ge _ _)) by auto. auto. }
  split; [|split; auto].
  intros j k E. destruct (Nat.lt_ge_cases j (Z.to_nat (size n))) as [Hj|Hj], (Nat.lt_ge_cases k (Z.to_nat (size n))) as [Hk|Hk].
  - destruct (Rg j Hj) as (t & V & ->). destruct (Rg k Hk) as (s & W & ->). rewrite !sigma_number in E by auto.
    f_equal. f_equal. apply (labels_injective n T P); auto. apply (number_injective n); auto; try (apply labels_valid; auto).
    pose proof (number_range _ _ (labels_valid n T P t V)). pose proof (number_range _ _ (labels_valid n T P s W)). lia.
  - pose proof (In1 j Hj). rewrite (Out k Hk) in E. lia.
  - pose proof (In1 k Hk). rewrite (Out j Hj) in E. lia.
  - rewrite (Out j Hj), (Out k Hk) in E. auto.
Qed.
Lemma sigma_first n T : shape n -> Forall2 permutes n T -> Forall (fun f => f 0%Z = 0%Z) T -> sigma_of n T 0%nat = 0%nat.
Proof.
  intros Sh P F. pose proof (sigma_number n T _ Sh (zero_valid n Sh)) as E. rewrite number_zero, (labels_zero n T P F) in E. exact E.
Qed.

(** ** Rows *)
Lemma relabel_holds T : forall row t, length T = length row -> holds_tuple row t ->
  holds_tuple (relabel_row T row) (labels T t).
Proof.
  induction T as [|f T IH]; intros row t L H; inversion H; subst; cbn in L; try discriminate; constructor.
  - destruct H0 as (q & -> & Eq). cbn. eexists. split; [reflexivity|]. rewrite (Qfloor_comp _ _ Eq), Qfloor_Z. reflexivity.
  - apply IH; auto.
Qed.
Lemma relabel_complete n T : Forall2 permutes n T -> forall row, length row = length n ->
  row_finite_semi_positive (relabel_row T row) = row_finite_semi_positive row.
Proof.
  unfold row_finite_semi_positive. intros P row. assert (X : forall row, length row = length n ->
     forallb isfinite (map2 relabel_number T row) = forallb isfinite row /\ forallb nonneg (map2 relabel_number T row) = forallb nonneg row).
  { clear row. induction P as [|k f n T P _ IH]; intros [|x row] L; cbn in L; try discriminate; auto.
    destruct (IH row ltac:(lia)) as [I1 I2]. cbn [map2 forallb]. rewrite I1, I2.
    destruct x as [q| | |]; cbn [relabel_number isfinite]; auto. split; auto. f_equal.
    unfold nonneg. destruct P as (P1 & P2 & _).
    assert (E : (0 <= f (Qfloor q) <-> 0 <= Qfloor q)%Z).
    { destruct (Z_le_dec 0 (Qfloor q)) as [A|A]; [destruct (Z_lt_dec (Qfloor q) k) as [C|C]|].
      - pose proof (P1 _ (conj A C)). lia.
      - rewrite P2 by lia. tauto.
      - rewrite P2 by lia. tauto. }
    destruct (fle (Fin 0) (Fin q)) eqn:E1.
    - apply fle_Fin in E1. apply fle_Fin. apply Qfloor_resp_le in E1. change (Qfloor 0) with 0%Z in E1. change 0%Q with (inject_Z 0). rewrite <- Zle_Qle. tauto.
    - destruct (fle (Fin 0) (Fin (inject_Z (f (Qfloor q))))) eqn:E2; auto. apply fle_Fin in E2. change 0%Q with (inject_Z 0) in E2.
      rewrite <- Zle_Qle in E2. apply E in E2. assert (Y : fle (Fin 0) (Fin q) = true); [|congruence]. apply fle_Fin.
      eapply Qle_trans; [|apply Qfloor_le]. change 0%Q with (inject_Z 0). rewrite <- Zle_Qle. auto. }
  intro L. destruct (X row L) as [X1 X2]. unfold relabel_row. rewrite X1, X2. auto.
Qed.
Lemma relabel_row_length T row : length T = length row -> length (relabel_row T row) = length row.
Proof. intro L. unfold relabel_row. rewrite map2_len; auto. Qed.

Lemma perm_lengths n T : Forall2 permutes n T -> length T = length n.
Proof. induction 1; cbn; auto. Qed.

Lemma dense_relabelled n T rows : Forall2 permutes n T -> dense n rows -> dense n (map (relabel_row T) rows).
Proof.
  intros P (Sh & Rw & Oc). pose proof (perm_lengths n T P) as LT. split; [|split]; auto.
  - intros row I. apply in_map_iff in I. destruct I as (r & <- & I). destruct (Rw r I) as [L [M|(t & H & V)]].
    + split; [rewrite relabel_row_length; congruence|]. left. apply semi_positive_iff. rewrite (relabel_complete n T P r L).
      apply semi_positive_iff. auto.
    + split; [rewrite relabel_row_length; congruence|]. right. exists (labels T t). split; [|apply labels_valid; auto].
      apply relabel_holds; congruence.
  - intros c k z Hc Hz.
    assert (Pc : exists f, nth_error T c = Some f /\ permutes k f).
    { clear -P Hc. revert c Hc. induction P; intros [|c] Hc; cbn in *; try discriminate; eauto. injection Hc as ->. eauto. }
    destruct Pc as (f & Hf & (_ & _ & u & U)). destruct (U z Hz) as (U1 & U2 & _).
    destruct (Oc c k (u z) Hc U1) as (row & t & I & H & V & E). exists (relabel_row T row), (labels T t).
    split; [apply in_map; auto|]. split; [apply relabel_holds; auto; rewrite LT; symmetry; apply Rw; auto|].
    split; [apply labels_valid; auto|]. unfold labels. rewrite nth_error_map2, Hf, E, U2. auto.
Qed.

(** *** Bins of dense data. *)
Lemma col_max_from a : forall b c x, nth_error (col_max a b) c = Some x -> nth_error a c = Some x \/ nth_error b c = Some x.
Proof.
  induction a as [|u a IH]; intros [|v b] [|c] x H; cbn in *; try discriminate; auto.
  destruct (fle u v); auto.
Qed.
Lemma fold_col_max_from rs : forall r c x, nth_error (fold_left col_max rs r) c = Some x -> exists s, In s (r :: rs) /\ nth_error s c = Some x.
Proof.
  induction rs as [|s rs IH]; intros r c x H; cbn [fold_left] in H.
  - exists r. split; [left; auto|auto].
  - destruct (IH _ _ _ H) as (t & [<-|I] & E).
    + destruct (col_max_from _ _ _ _ E); [exists r|exists s]; split; auto; [left|right; left]; auto.
    + exists t. split; auto. right. right. auto.
Qed.

Lemma dense_complete n rows row : dense n rows -> In row rows -> row_finite_semi_positive row = true ->
  exists t, holds_tuple row t /\ valid_tuple n t.
Proof.
  intros (_ & Rw & _) I C. destruct (Rw row I) as [_ [M|H]]; auto. apply semi_positive_iff in M. congruence.
Qed.
Lemma dense_bins n rows : n <> [] -> dense n rows -> data_n_bins (length n) rows = n.
Proof.
  intros N0 D. pose proof D as (Sh & Rw & Oc).
  assert (Hl : forall r, In r rows -> length r = length n) by (intros r I; apply Rw; auto).
  pose proof (data_n_bins_length (length n) rows Hl) as L.
  apply nth_error_ext. intro c.
  destruct (nth_error n c) as [k|] eqn:Ek.
  2:{ apply nth_error_None in Ek. apply nth_error_None. lia. }
  assert (Kp : (0 < k)%Z). { apply nth_error_In in Ek. unfold shape in Sh. rewrite Forall_forall in Sh. auto. }
  assert (Sh' : shape (data_n_bins (length n) rows)).
  { destruct (Oc c k 0%Z Ek ltac:(lia)) as (row & t & I & H & V & _). apply (data_shape _ _ row); auto. eapply holds_semi_positive; eauto. }
  destruct (nth_error (data_n_bins (length n) rows) c) as [k'|] eqn:Ek'.
  2:{ apply nth_error_None in Ek'. assert (c < length n)%nat by (apply nth_error_Some; congruence). lia. }
  f_equal. apply Z.le_antisymm.
  - unfold data_n_bins in Ek'. destruct (filter row_finite_semi_positive rows) as [|r rs] eqn:Ef.
    + destruct (Oc c k 0%Z Ek ltac:(lia)) as (row & t & I & H & V & _).
      assert (X : In row (filter row_finite_semi_positive rows)) by (apply filter_In; split; auto; eapply holds_semi_positive; eauto).
      rewrite Ef in X. contradiction.
    + rewrite nth_error_map in Ek'. destruct (nth_error (fold_left col_max rs r) c) as [x|] eqn:Ex; [|discriminate].
      cbn in Ek'. injection Ek' as <-. destruct (fold_col_max_from _ _ _ _ Ex) as (s & I & E). rewrite <- Ef in I. apply filter_In in I. destruct I as [I C].
      destruct (dense_complete n rows s D I C) as (t & H & V).
      assert (Ft : map floor_of s = t) by (apply floors_holds; auto).
      assert (Et : nth_error t c = Some (floor_of x)) by (rewrite <- Ft, nth_error_map, E; auto).
      assert (Rx : (0 <= floor_of x < k)%Z).
      { clear -V Ek Et. unfold valid_tuple in V. revert c Ek Et. induction V; intros [|c] Ek Et; cbn in *; try discriminate; eauto. injection Ek as ->. injection Et as ->. auto. }
      lia.
  - destruct (Oc c k (k - 1)%Z Ek ltac:(lia)) as (row & t & I & H & V & E).
    pose proof (data_rows_valid (length n) rows row Hl I (holds_semi_positive _ _ _ H V)) as RV.
    destruct (valid_floors _ row ltac:(rewrite L; auto) RV) as [_ VF]. rewrite (floors_holds _ _ H) in VF.
    assert (Rx : (0 <= k - 1 < k')%Z).
    { clear -VF Ek' E. unfold valid_tuple in VF. revert c Ek' E. induction VF; intros [|c] Ek' E; cbn in *; try discriminate; eauto. injection Ek' as ->. injection E as ->. auto. }
    lia.
Qed.

(** ** One feature group *)
Lemma nth_valid n t c m z : valid_tuple n t -> nth_error n c = Some m -> nth_error t c = Some z -> (0 <= z < m)%Z.
Proof.
  unfold valid_tuple. intro V. revert c. induction V; intros [|c] H1 H2; cbn in *; try discriminate; eauto. congruence.
Qed.
Lemma valid_dec : forall n z, valid_tuple n z \/ ~ valid_tuple n z.
Proof.
  unfold valid_tuple. induction n as [|c n IH]; intros [|y z]; try (left; constructor; fail); try (right; intro X; inversion X; fail).
  destruct (IH z) as [V|V]; [|right; intro X; inversion X; auto].
  destruct (Z_le_dec 0 y); [destruct (Z_lt_dec y c)|]; [left; constructor; auto; lia|right; intro X; inversion X; subst; lia|right; intro X; inversion X; subst; lia].
Qed.
Lemma labels_valid_inv n T : Forall2 permutes n T -> forall z, length z = length n -> valid_tuple n (labels T z) -> valid_tuple n z.
Proof.
  intro Pm. induction Pm as [|c f n T' Pc _ IH]; intros [|y z] Lzn V'; cbn in Lzn; try discriminate; [constructor|].
  cbn in V'. inversion V'; subst. constructor; [|apply IH; auto].
  destruct Pc as (P1 & P2 & _). destruct (Z_le_dec 0 y); [destruct (Z_lt_dec y c)|]; try lia; rewrite P2 in H2; lia.
Qed.
Lemma whole_holds row : (forall x, In x row -> whole x) -> row_finite_semi_positive row = true -> exists z, holds_tuple row z.
Proof.
  intros W Cr. unfold row_finite_semi_positive in Cr. apply andb_prop in Cr. destruct Cr as [Cr _]. induction row as [|x row IH]; [exists []; constructor|].
  cbn [forallb] in Cr. apply andb_prop in Cr. destruct Cr as [C1 C2]. destruct IH as (z & Hz); auto; [intros y Hy; apply W; right; auto|].
  destruct (W x (or_introl eq_refl) C1) as (c & Hc). exists (c :: z). constructor; auto.
Qed.
Section Group.
Variables (T : list (Z -> Z)) (f f' : feature).
Hypothesis Dim : (1 <= f_dim f)%nat.
Hypothesis Dim' : f_dim f' = f_dim f.
Hypothesis Wd : forall r, In r (f_rows f) -> length r = f_dim f.
Hypothesis Wh : forall r, In r (f_rows f) -> row_finite_semi_positive r = true -> exists t, holds_tuple r t.
Hypothesis Sh : shape (f_nbins f).
Hypothesis Nb : f_nbins f' = f_nbins f.
Hypothesis Pm : Forall2 permutes (f_nbins f) T.
Hypothesis Rw : f_rows f' = map (relabel_row T) (f_rows f).
Let n := f_nbins f.
Let sigma := sigma_of n T.

Lemma group_length : length n = f_dim f.
Proof. apply f_nbins_length. exact Wd. Qed.
Lemma relabelled_width r : In r (f_rows f') -> length r = f_dim f'.
Proof.
  rewrite Rw, Dim'. intro I. apply in_map_iff in I. destruct I as (s & <- & I). rewrite relabel_row_length; [auto|].
  rewrite (perm_lengths _ _ Pm), (Wd s I). apply group_length.
Qed.
Lemma group_pair : pair sigma (Z.to_nat (size n)) f f'.
Proof.
  pose proof group_length as Ln.
  assert (Fn : f_finite f = Z.to_nat (size n)) by (unfold f_finite; fold n; rewrite size_prod; auto).
  assert (Fn' : f_finite f' = Z.to_nat (size n)) by (unfold f_finite; rewrite Nb; fold n; rewrite size_prod; auto).
  constructor; auto.
  apply nth_error_ext. intro j.
  destruct (nth_error (f_rows f) j) as [row|] eqn:Ej.
  2:{ assert (X : nth_error (f_lex f) j = None) by (apply nth_error_None; rewrite f_lex_length; apply nth_error_None; auto).
      rewrite nth_error_map, X. apply nth_error_None. rewrite f_lex_length, Rw, map_length. apply nth_error_None. auto. }
  assert (Ej' : nth_error (f_rows f') j = Some (relabel_row T row)) by (rewrite Rw, nth_error_map, Ej; auto).
  pose proof (f_lex_nth f Dim Wd j row Ej) as E1. pose proof (f_lex_nth f' ltac:(lia) relabelled_width j _ Ej') as E2.
  rewrite nth_error_map.
  rewrite (nth_error_nth' (f_lex f') 0%nat) by (rewrite f_lex_length; apply nth_error_Some; congruence).
  rewrite (nth_error_nth' (f_lex f) 0%nat) by (rewrite f_lex_length; apply nth_error_Some; congruence).
  cbn [option_map]. f_equal. rewrite E1, E2. pose proof (nth_error_In _ _ Ej) as In1.
  assert (Lr : length row = length n) by (rewrite Ln; auto).
  rewrite (relabel_complete n T Pm row Lr). destruct (row_finite_semi_positive row) eqn:C.
  - destruct (Wh row In1 C) as (t & H). pose proof (data_rows_valid (f_dim f) (f_rows f) row Wd In1 C) as RV. rewrite <- f_nbins_data in RV. fold n in RV.
    destruct (valid_floors _ row Lr RV) as [_ V]. rewrite (floors_holds _ _ H) in V.
    rewrite Nb. fold n. pose proof (valid_length _ _ V) as Lt.
    rewrite (lex_value_number n row t H Lt).
    rewrite (lex_value_number n (relabel_row T row) (labels T t)).
    + symmetry. apply sigma_number; auto.
    + apply relabel_holds; auto. rewrite (perm_lengths _ _ Pm). auto.
    + rewrite (valid_length n _ (labels_valid n T Pm t V)). auto.
  - rewrite Fn', Fn. unfold sigma, sigma_of. rewrite (proj2 (Nat.ltb_ge _ _)); auto.
Qed.
Lemma group_bijection : bijection (Z.to_nat (size n)) sigma.
Proof. apply sigma_bijection; auto. Qed.

Lemma group_rowpred s t a b row : s_agg s = Some a -> s_agg t = Some b -> length a = S (Z.to_nat (size n)) -> renumbered sigma a b ->
  length row = f_dim f -> (forall x, In x row -> whole x) ->
  rowpred (store f' t) (relabel_row T row) = rowpred (store f s) row.
Proof.
  intros Ha Hb La Ra Lr W. destruct (pr_fin _ _ _ _ group_pair) as [F1 F2]. pose proof group_length as Ln.
  assert (Lb : length b = S (Z.to_nat (size n))) by (eapply renumbered_length; [apply bijection_succ, group_bijection| |]; eauto).
  pose proof (rowpred_contributes f Dim Wd s a row Ha ltac:(congruence)) as (A1 & A2 & A3).
  pose proof (rowpred_contributes f' ltac:(lia) relabelled_width t b (relabel_row T row) Hb ltac:(congruence)) as (B1 & B2 & B3).
  rewrite Nb, F2 in *. rewrite F1 in *. fold n in A1, A2, A3, B1, B2, B3.
  pose proof (perm_lengths _ _ Pm) as LT. fold n in LT.
  pose proof (relabel_complete n T Pm row ltac:(congruence)) as C.
  destruct (row_finite_semi_positive row) eqn:Cr.
  2:{ apply semi_positive_iff in C. apply semi_positive_iff in Cr. rewrite A1, B1 by auto.
      rewrite <- (proj2 (proj2 group_bijection) (Z.to_nat (size n))) at 1 by auto. apply renumbered_nth. auto. }
  assert (Nm : ~ missing_entry row) by (intro M; apply semi_positive_iff in M; congruence).
  assert (Nm' : ~ missing_entry (relabel_row T row)) by (intro M; apply semi_positive_iff in M; congruence).
  destruct (whole_holds row W Cr) as (z & H). pose proof (holds_length _ _ H) as Lz.
  pose proof (relabel_holds T row z ltac:(congruence) H) as H'.
  destruct (valid_dec n z) as [V|V].
  - pose proof (labels_valid n T Pm z V) as V'.
    rewrite (A2 z H V), (B2 _ H' V'). rewrite <- sigma_number; [|auto|auto].
    apply renumbered_nth. apply renumbered_firstn; auto. apply group_bijection.
  - assert (V' : ~ valid_tuple n (labels T z)) by (intro V'; apply V; apply (labels_valid_inv n T Pm); [congruence|auto]).
    rewrite (A3 z H) by (auto; congruence). rewrite (B3 _ H'); auto.
    unfold labels. rewrite map2_len; congruence.
Qed.
End Group.

(** ** The training *)
Section Relabel.
Variables (gm : R -> R) (bppf : R -> R -> R -> R) (erfinv : R -> R) (bad : R).
Variable k : kind.
Variable prior_column : bool.
Variable gs : list group.
Variable cfg : settings.
Variable rate : nat -> nat -> R.
Variable D : list sample.
Variable T : nat -> list (Z -> Z).
Hypothesis Rel : relabelling gs D T.
Hypothesis smoothers : forall i g, nth_error gs i = Some g ->
  label_free (g_smoother g) \/ label_free_but_first (g_smoother g) /\ Forall (fun t => t 0%Z = 0%Z) (T i).
Let D' := map (relabel T) D.

Definition sig (i : nat) : nat -> nat :=
  match nth_error gs i with Some g => sigma_of (f_nbins (bind_group D i g)) (T i) | None => fun b => b end.
Definition fin (i : nat) : nat :=
  match nth_error gs i with Some g => Z.to_nat (size (f_nbins (bind_group D i g))) | None => 0%nat end.

Lemma rows_relabelled i : map (fun s => x_bins s i) D' = map (relabel_row (T i)) (map (fun s => x_bins s i) D).
Proof. unfold D'. rewrite !map_map. reflexivity. Qed.

Lemma group_facts i g : nth_error gs i = Some g -> let f := bind_group D i g in let f' := bind_group D' i g in
  (1 <= f_dim f)%nat /\ f_dim f' = f_dim f /\ (forall r, In r (f_rows f) -> length r = f_dim f) /\
  (forall r, In r (f_rows f) -> row_finite_semi_positive r = true -> exists t, holds_tuple r t) /\
  shape (f_nbins f) /\ f_nbins f' = f_nbins f /\ Forall2 permutes (f_nbins f) (T i) /\ f_rows f' = map (relabel_row (T i)) (f_rows f).
Proof.
  intro G. destruct (Rel i g G) as (Dim & n & Ln & De & P). cbv zeta.
  set (f := bind_group D i g). set (f' := bind_group D' i g).
  assert (Nn : n <> []) by (destruct n; cbn in Ln; [lia|discriminate]).
  assert (R' : f_rows f' = map (relabel_row (T i)) (f_rows f)) by apply rows_relabelled.
  assert (De' : dense n (f_rows f')) by (rewrite R'; apply dense_relabelled; auto).
  assert (N1 : f_nbins f = n).
  { change (data_n_bins (g_dim g) (map (fun s => x_bins s i) D) = n). rewrite <- Ln. apply dense_bins; auto. }
  assert (N2 : f_nbins f' = n).
  { change (data_n_bins (g_dim g) (f_rows f') = n). rewrite <- Ln. apply dense_bins; auto. }
  rewrite N1, N2. split; [exact Dim|]. split; [reflexivity|].
  split. { intros r I. cbn [f_dim f bind_group]. rewrite <- Ln. apply De. auto. }
  split. { intros r I C. destruct (dense_complete n _ r De I C) as (t & H & _). eauto. }
  split; [apply De|]. auto.
Qed.
Lemma sig_bijection i : bijection (fin i) (sig i).
Proof.
  unfold fin, sig. destruct (nth_error gs i) as [g|] eqn:G.
  - apply sigma_bijection; apply (group_facts i g G).
  - split; [|split]; auto. intros a b H. auto.
Qed.
Lemma bind_pair i g : nth_error gs i = Some g -> pair (sig i) (fin i) (bind_group D i g) (bind_group D' i g).
Proof.
  intro G. destruct (group_facts i g G) as (H1 & H2 & H3 & H4 & H5 & H6 & H7 & H8). unfold sig, fin. rewrite G. apply group_pair; auto.
Qed.

Theorem relabel_fit fuel : same_up_to_labels k prior_column gs T
  (whole_fit gm bppf erfinv bad k prior_column gs cfg rate fuel D)
  (whole_fit gm bppf erfinv bad k prior_column gs cfg rate fuel D').
Proof.
  set (like := fun i row row' => forall g, nth_error gs i = Some g -> length row = g_dim g /\ (forall x, In x row -> whole x) /\ row' = relabel_row (T i) row).
  pose proof (renumber_fit gm bppf erfinv bad k prior_column gs cfg rate D D' sig fin sig_bijection bind_pair) as Re.
  specialize (Re ltac:(intros i g G; destruct (smoothers i g G) as [H|[H Z0]]; [left; exact H|right; left; split; [exact H|];
    unfold sig; rewrite G; apply sigma_first; [apply (group_facts i g G)|apply (group_facts i g G)|exact Z0]])).
  specialize (Re ltac:(unfold D'; rewrite map_map; reflexivity) ltac:(unfold D'; rewrite map_map; reflexivity) ltac:(unfold D'; rewrite map_map; reflexivity) like).
  assert (Hl : forall i g s t a b row row', nth_error gs i = Some g -> s_agg s = Some a -> s_agg t = Some b -> rfl sig fin i a b ->
     like i row row' -> rowpred (store (bind_group D' i g) t) row' = rowpred (store (bind_group D i g) s) row).
  { intros i g s t a b row row' G Ha Hb [La Ra] L. destruct (L g G) as (L1 & L2 & ->). destruct (group_facts i g G) as (H1 & H2 & H3 & H4 & H5 & H6 & H7 & H8).
    unfold fin in La. unfold sig in Ra. rewrite G in La, Ra. apply (group_rowpred (T i) _ _ H1 H2 H3 H4 H5 H6 H7 H8 s t a b); auto. }
  specialize (Re Hl fuel).
  destruct (whole_fit gm bppf erfinv bad k prior_column gs cfg rate fuel D) as [|e| |m], (whole_fit gm bppf erfinv bad k prior_column gs cfg rate fuel D') as [|e'| |m'];
    cbn [same_up_to_labels]; try exact Re; try (symmetry; exact Re).
  destruct Re as (R1 & R2 & R3 & R4 & R5). do 4 (split; [assumption|]). intros X W. apply R5.
  clear -W. assert (W' : forall s i g, In s X -> nth_error gs i = Some g -> length (x_bins s i) = g_dim g /\ forall x, In x (x_bins s i) -> whole x) by exact W.
  clear W. induction X as [|x X IH]; cbn [map]; constructor.
  - split; [reflexivity|]. intros i g G g' G'. destruct (W' x i g' (or_introl eq_refl) G') as [L1 L2]. auto.
  - apply IH. intros s i g I. apply W'. right. exact I.
Qed.
End Relabel.

(** ** Smoothers that do not look at the numbers of the bins *)
Lemma bin_values_free : label_free bin_values.
Proof. intros sigma n ce w w' u u' v v' b Bj _ Lw Lu Lv Rw Ru Rv Hb. unfold bin_values. apply Rv. Qed.

Lemma prior_expectation_free p t : label_free (prior_expectation_bins p t).
Proof.
  intros sigma n ce w w' u u' v v' b Bj _ Lw Lu Lv Rw Ru Rv Hb. unfold prior_expectation_bins.
  apply renumbered_nth. apply renumbered_map2; auto.
Qed.

Lemma cut_free ok s : label_free_for ok s -> label_free_for ok (cut_unseen s).
Proof.
  intros H sigma n ce w w' u u' v v' b Bj Ok Lw Lu Lv Rw Ru Rv Hb. unfold cut_unseen.
  rewrite (renumbered_nth sigma w w' b 0 Rw). destruct (Reqb _ _); auto. eapply (H sigma n); eauto.
Qed.

Lemma forallb_perm {A} (f : A -> bool) a b : Permutation a b -> forallb f a = forallb f b.
Proof. induction 1; cbn; auto; [congruence|destruct (f x), (f y); auto|congruence]. Qed.
Lemma existsb_perm {A} (f : A -> bool) a b : Permutation a b -> existsb f a = existsb f b.
Proof. induction 1; cbn; auto; [congruence|destruct (f x), (f y); auto|congruence]. Qed.

(** The result of the regularisation around [x_mean]. *)
Lemma regularized_free n sigma u u' v v' (mean mean' : list R -> R -> R) : bijection n sigma ->
  length u = n -> length v = n -> renumbered sigma u u' -> renumbered sigma v v' ->
  (forall wx wx', renumbered sigma wx wx' -> length wx = n -> mean' wx' (sumR wx) = mean wx (sumR wx)) -> forall b,
  match (if existsb (fun u => Reqb u 0) u' then Some (map (fun _ => None) v')
         else let wx := map (fun u => 1 / (u * u)) u' in
              let sum_wx := sumR wx in
              let x_mean := mean' wx sum_wx in
              let wx_incl := 1 / (sumR (map2 (fun w x => w * (x - x_mean) ^ 2) wx v') / sum_wx) in
              Some (map2 (fun w x => Some ((w * x + wx_incl * x_mean) / (w + wx_incl))) wx v')) with
  | Some smoothed => nth (sigma b) smoothed None | None => None end =
  match (if existsb (fun u => Reqb u 0) u then Some (map (fun _ => None) v)
         else let wx := map (fun u => 1 / (u * u)) u in
              let sum_wx := sumR wx in
              let x_mean := mean wx sum_wx in
              let wx_incl := 1 / (sumR (map2 (fun w x => w * (x - x_mean) ^ 2) wx v) / sum_wx) in
              Some (map2 (fun w x => Some ((w * x + wx_incl * x_mean) / (w + wx_incl))) wx v)) with
  | Some smoothed => nth b smoothed None | None => None end.
Proof.
  intros Bj Lu Lv Ru Rv Me b.
  pose proof (renumbered_length n sigma u u' Bj Ru Lu) as Lu'. pose proof (renumbered_length n sigma v v' Bj Rv Lv) as Lv'.
  rewrite <- (existsb_perm (fun u => Reqb u 0) u u') by (apply (renumbered_perm n sigma); auto; congruence).
  destruct (existsb _ u).
  - apply renumbered_nth. apply renumbered_map; auto.
  - cbv zeta.
    pose proof (renumbered_map (fun u => 1 / (u * u)) sigma u u' Ru) as Rw.
    assert (Lw : length (map (fun u => 1 / (u * u)) u) = n) by (rewrite map_length; auto).
    set (wx := map (fun u => 1 / (u * u)) u) in *. set (wx' := map (fun u => 1 / (u * u)) u') in *.
    rewrite <- (renumbered_sum n sigma wx wx' Bj Rw Lw). rewrite (Me wx wx' Rw Lw).
    assert (E : sumR (map2 (fun w x => w * (x - mean wx (sumR wx)) ^ 2) wx v) = sumR (map2 (fun w x => w * (x - mean wx (sumR wx)) ^ 2) wx' v')).
    { apply (renumbered_sum n sigma); auto; [apply renumbered_map2; auto|rewrite map2_len; congruence]. }
    rewrite <- E. apply renumbered_nth. apply renumbered_map2; auto.
Qed.

Lemma weighted_mean_prior_free p : label_free (weighted_mean_bins (Some p)).
Proof.
  intros sigma n ce w w' u u' v v' b Bj _ Lw Lu Lv Rw Ru Rv Hb.
  pose proof (renumbered_length n sigma u u' Bj Ru Lu) as Lu'. pose proof (renumbered_length n sigma v v' Bj Rv Lv) as Lv'.
  unfold weighted_mean_bins, regularize_to_error_weighted_mean. rewrite Lu, Lv, Lu', Lv', Nat.eqb_refl. cbn [negb].
  assert (A : allclose v' p = allclose v p). { unfold allclose. symmetry. apply forallb_perm. apply (renumbered_perm n sigma); auto. congruence. }
  rewrite A.
  assert (Un : match Some (map Some v') with Some l => nth (sigma b) l None | None => None end = match Some (map Some v) with Some l => nth b l None | None => None end).
  { apply renumbered_nth. apply renumbered_map; auto. }
  assert (Rg := regularized_free n sigma u u' v v' (fun _ _ => p) (fun _ _ => p) Bj Lu Lv Ru Rv (fun _ _ _ _ => eq_refl) b).
  destruct v as [|x v], v' as [|x' v']; cbn in Lv, Lv'; try (exfalso; lia).
  destruct (allclose (x :: v) p); [exact Un|exact Rg].
Qed.

Lemma weighted_mean_free : label_free_but_first (weighted_mean_bins None).
Proof.
  intros sigma n ce w w' u u' v v' b Bj Z0 Lw Lu Lv Rw Ru Rv Hb.
  pose proof (renumbered_length n sigma u u' Bj Ru Lu) as Lu'. pose proof (renumbered_length n sigma v v' Bj Rv Lv) as Lv'.
  unfold weighted_mean_bins, regularize_to_error_weighted_mean. rewrite Lu, Lv, Lu', Lv', Nat.eqb_refl. cbn [negb].
  pose proof (renumbered_perm n sigma v v' Bj Rv ltac:(congruence)) as Pv.
  assert (Un : match Some (map Some v') with Some l => nth (sigma b) l None | None => None end = match Some (map Some v) with Some l => nth b l None | None => None end).
  { apply renumbered_nth. apply renumbered_map; auto. }
  assert (Rg := regularized_free n sigma u u' v v' (fun wx sum_wx => sumR (map2 Rmult wx v) / sum_wx) (fun wx sum_wx => sumR (map2 Rmult wx v') / sum_wx) Bj Lu Lv Ru Rv).
  specialize (Rg ltac:(intros wx wx' R1 L1; cbn beta; f_equal; symmetry; apply (renumbered_sum n sigma); auto; [apply renumbered_map2; auto|rewrite map2_len; congruence]) b).
  pose proof (Rv 0%nat) as F. rewrite Z0 in F.
  destruct v as [|x v], v' as [|x' v']; cbn [length] in Lv, Lv'; try (exfalso; lia).
  cbn [nth_error] in F. injection F as ->.
  destruct v as [|x1 v], v' as [|x1' v']; cbn [length] in Lv, Lv'; try (exfalso; lia); [exact Un|].
  assert (A : allclose (x :: x1' :: v') x = allclose (x :: x1 :: v) x) by (unfold allclose; symmetry; apply forallb_perm; auto).
  rewrite A. destruct (allclose (x :: x1 :: v) x); [exact Un|exact Rg].
Qed.

Lemma explicit_mean_free : label_free_but_first explicit_mean.
Proof. apply cut_free, weighted_mean_free. Qed.

Lemma normalised_free ok s : label_free_for ok s -> label_free_for ok (normalised s).
Proof.
  intros H sigma n ce w w' u u' v v' b Bj Ok Lw Lu Lv Rw Ru Rv Hb. unfold normalised. cbv zeta.
  assert (E : bins_norm w' v' = bins_norm w v).
  { unfold bins_norm. cbv zeta. rewrite <- (renumbered_sum n sigma w w' Bj Rw Lw).
    rewrite <- (renumbered_sum n sigma (map2 Rmult v w) (map2 Rmult v' w') Bj) by
      (try apply renumbered_map2; auto; rewrite map2_len; congruence). reflexivity. }
  rewrite E. f_equal. apply (H sigma n); auto; [rewrite map_length; auto|apply renumbered_map; auto].
Qed.
Lemma default_unordered_free : label_free default_unordered.
Proof. apply cut_free, normalised_free, weighted_mean_prior_free. Qed.

(** ** The theorem *)
Theorem relabelling_irrelevant gm bppf erfinv bad k prior gs cfg rate fuel D T :
  relabelling gs D T ->
  (forall i g, nth_error gs i = Some g ->
     label_free (g_smoother g) \/ label_free_but_first (g_smoother g) /\ Forall (fun t => t 0%Z = 0%Z) (T i)) ->
  same_up_to_labels k prior gs T
    (whole_fit gm bppf erfinv bad k prior gs cfg rate fuel D)
    (whole_fit gm bppf erfinv bad k prior gs cfg rate fuel (map (relabel T) D)).
Proof. intros. apply relabel_fit; auto. Qed.
