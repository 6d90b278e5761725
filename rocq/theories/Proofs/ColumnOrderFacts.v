(** Feature groups with their columns in another order. *)
From Coq Require Import ZArith QArith Qround List Bool Reals Lra Lia Permutation FinFun.
From Verif.Model Require Import Num LexBins Train Predict Link Estimators Gbs Regularize WholeFit BinSmoothers.
From Verif.Spec Require Import LexSpec PredictSpec RelabelSpec ColumnOrderSpec.
From Verif.Proofs Require Import FnumOrder LexFacts TrainFacts PredictFacts ChainFacts Simulation OrderFacts RenumberFacts RelabelFacts.
Import ListNotations.
Local Open Scope R_scope.

(** ** Lists in another order *)
Section Lists.
Variable ps : list nat.
Variable m : nat.
Hypothesis Ps : Permutation ps (seq 0 m).

Lemma ps_length : length ps = m.
Proof. rewrite (Permutation_length Ps). apply seq_length. Qed.
Lemma ps_below p : In p ps -> (p < m)%nat.
Proof. intro I. apply (Permutation_in _ Ps) in I. apply in_seq in I. lia. Qed.
Lemma ps_all p : (p < m)%nat -> In p ps.
Proof. intro I. apply (Permutation_in _ (Permutation_sym Ps)). apply in_seq. lia. Qed.
Lemma reordered_length {A} (d : A) l : length (reordered d ps l) = m.
Proof. unfold reordered. rewrite map_length. apply ps_length. Qed.
Lemma map_nth_seq {A} (d : A) l : map (fun p => nth p l d) (seq 0 (length l)) = l.
Proof.
  apply nth_error_ext. intro j. destruct (Nat.lt_ge_cases j (length l)) as [L|L].
  - rewrite nth_error_map, (nth_error_nth' (seq 0 (length l)) 0%nat) by (rewrite seq_length; auto). cbn [option_map]. rewrite seq_nth by auto.
    symmetry. apply nth_error_nth'. auto.
  - rewrite (proj2 (nth_error_None _ _)), (proj2 (nth_error_None _ _)); auto. rewrite map_length, seq_length. auto.
Qed.
Lemma reordered_perm {A} (d : A) l : length l = m -> Permutation (reordered d ps l) l.
Proof. intro L. unfold reordered. rewrite Ps. rewrite <- L, map_nth_seq. reflexivity. Qed.
Lemma reordered_map {A B} (f : A -> B) d e l : length l = m -> reordered e ps (map f l) = map f (reordered d ps l).
Proof.
  intro L. unfold reordered. rewrite map_map. apply map_ext_in. intros p I. apply ps_below in I.
  rewrite (nth_indep _ e (f d)) by (rewrite map_length; lia). apply map_nth.
Qed.
Lemma reordered_map2 {A B C} (f : A -> B -> C) d e x a b : length a = m -> length b = m ->
  reordered x ps (map2 f a b) = map2 f (reordered d ps a) (reordered e ps b).
Proof.
  intros La Lb. unfold reordered.
  assert (forall q, (forall p, In p q -> (p < m)%nat) -> map (fun p => nth p (map2 f a b) x) q = map2 f (map (fun p => nth p a d) q) (map (fun p => nth p b e) q)).
  { induction q as [|p q IH]; intro H; [reflexivity|]. cbn [map map2]. f_equal; [|apply IH; intros; apply H; right; auto].
    specialize (H p (or_introl eq_refl)). apply nth_error_nth. rewrite nth_error_map2, (nth_error_nth' a d), (nth_error_nth' b e) by lia. reflexivity. }
  apply H. apply ps_below.
Qed.
Lemma reordered_nth {A} (d : A) l j : nth_error (reordered d ps l) j = option_map (fun p => nth p l d) (nth_error ps j).
Proof. unfold reordered. apply nth_error_map. Qed.
Lemma reordered_injective {A} (d : A) a b : length a = m -> length b = m -> reordered d ps a = reordered d ps b -> a = b.
Proof.
  intros La Lb E. apply nth_error_ext. intro j. destruct (Nat.lt_ge_cases j m) as [L|L].
  - rewrite (nth_error_nth' a d), (nth_error_nth' b d) by lia. f_equal.
    assert (forall q, In j q -> map (fun p => nth p a d) q = map (fun p => nth p b d) q -> nth j a d = nth j b d).
    { induction q as [|p q IH]; intros I H; [contradiction|]. cbn [map] in H. injection H as H1 H2. destruct I as [<-|I]; auto. }
    apply (H ps); auto. apply ps_all. auto.
  - rewrite (proj2 (nth_error_None _ _)), (proj2 (nth_error_None _ _)); auto; lia.
Qed.
Lemma reordered_Forall2 {A B} (R : A -> B -> Prop) d e a b : length a = m -> Forall2 R a b -> Forall2 R (reordered d ps a) (reordered e ps b).
Proof.
  intros La F. unfold reordered.
  assert (N : forall p, (p < m)%nat -> R (nth p a d) (nth p b e)).
  { clear Ps. subst m. induction F as [|x y a b H F IH]; cbn [length]; intros p Hp; [lia|]. destruct p; cbn [nth]; auto. apply IH. lia. }
  assert (forall q, (forall p, In p q -> (p < m)%nat) -> Forall2 R (map (fun p => nth p a d) q) (map (fun p => nth p b e) q)).
  { induction q as [|p q IH]; intro H; cbn; constructor; [apply N, H; left; auto|apply IH; intros; apply H; right; auto]. }
  apply H. apply ps_below.
Qed.
Lemma reordered_Forall2_inv {A B} (R : A -> B -> Prop) d e a b : length a = m -> length b = m -> Forall2 R (reordered d ps a) (reordered e ps b) -> Forall2 R a b.
Proof.
  intros La Lb F.
  assert (N : forall p, (p < m)%nat -> R (nth p a d) (nth p b e)).
  { intros p Hp. apply ps_all in Hp. unfold reordered in F. revert Hp F. clear. induction ps as [|q r IH]; intros [] F; cbn [map] in F; inversion F; subst; auto. }
  clear F Ps. revert b Lb N La. generalize m. induction a as [|x a IH]; intros m' [|y b] Lb N La; cbn in *; try lia; constructor.
  - apply (N 0%nat). lia.
  - apply (IH (pred m')); try lia. intros p Hp. apply (N (S p)). lia.
Qed.
Lemma size_perm a b : Permutation a b -> size a = size b.
Proof. induction 1; cbn; lia. Qed.
Lemma reordered_size n : length n = m -> size (reordered 0%Z ps n) = size n.
Proof. intro L. apply size_perm, reordered_perm. auto. Qed.
Lemma reordered_valid n t : length n = m -> valid_tuple n t -> valid_tuple (reordered 0%Z ps n) (reordered 0%Z ps t).
Proof. intros L V. apply reordered_Forall2; auto. Qed.
Lemma reordered_shape n : length n = m -> shape n -> shape (reordered 0%Z ps n).
Proof. intros L V. unfold shape in *. rewrite (reordered_perm 0%Z n L). auto. Qed.
Lemma reordered_complete row : length row = m -> row_finite_semi_positive (reordered NaN ps row) = row_finite_semi_positive row.
Proof.
  intro L. unfold row_finite_semi_positive. f_equal; apply forallb_perm, reordered_perm; auto.
Qed.
End Lists.

(** ** The number of a bin *)
Definition column_sigma (n : list Z) (ps : list nat) (k : nat) : nat :=
  if Nat.ltb k (Z.to_nat (size n)) then Z.to_nat (number (reordered 0%Z ps n) (reordered 0%Z ps (digits n (Z.of_nat k)))) else k.

Section Numbers.
Variable ps : list nat.
Variable n : list Z.
Hypothesis Ps : Permutation ps (seq 0 (length n)).
Hypothesis Sh : shape n.

Lemma column_sigma_number t : valid_tuple n t ->
  column_sigma n ps (Z.to_nat (number n t)) = Z.to_nat (number (reordered 0%Z ps n) (reordered 0%Z ps t)).
Proof.
  intro V. pose proof (number_range _ _ V). unfold column_sigma. rewrite (proj2 (Nat.ltb_lt _ _)) by lia.
  rewrite Z2Nat.id by lia. rewrite digits_number; auto.
Qed.
Lemma column_tuple k : (k < Z.to_nat (size n))%nat -> exists t, valid_tuple n t /\ k = Z.to_nat (number n t).
Proof.
  intro Hk. exists (digits n (Z.of_nat k)). split; [apply digits_valid; auto|]. rewrite number_digits by (auto; lia). lia.
Qed.
Lemma column_bijection : bijection (Z.to_nat (size n)) (column_sigma n ps).
Proof.
  assert (In1 : forall k, (k < Z.to_nat (size n))%nat -> (column_sigma n ps k < Z.to_nat (size n))%nat).
  { intros k Hk. destruct (column_tuple k Hk) as (t & V & ->). rewrite column_sigma_number by auto.
    pose proof (number_range _ _ (reordered_valid ps _ Ps n t eq_refl V)) as X. rewrite (reordered_size ps _ Ps) in X by auto. lia. }
  assert (Out : forall k, (Z.to_nat (size n) <= k)%nat -> column_sigma n ps k = k).
  { intros k Hk. unfold column_sigma. rewrite (proj2 (Nat.ltb_ge _ _)) by auto. auto. }
  split; [|split; auto].
  intros j k E. destruct (Nat.lt_ge_cases j (Z.to_nat (size n))) as [Hj|Hj], (Nat.lt_ge_cases k (Z.to_nat (size n))) as [Hk|Hk].
  - destruct (column_tuple j Hj) as (t & V & ->). destruct (column_tuple k Hk) as (s & W & ->). rewrite !column_sigma_number in E by auto.
    f_equal. f_equal. apply (reordered_injective ps _ Ps 0%Z); try (apply valid_length; auto).
    pose proof (reordered_valid ps _ Ps n t eq_refl V) as V'. pose proof (reordered_valid ps _ Ps n s eq_refl W) as W'.
    apply (number_injective _ _ _ V' W'). pose proof (number_range _ _ V'). pose proof (number_range _ _ W'). lia.
  - pose proof (In1 j Hj). rewrite (Out k Hk) in E. lia.
  - pose proof (In1 k Hk). rewrite (Out j Hj) in E. lia.
  - rewrite (Out j Hj), (Out k Hk) in E. auto.
Qed.
Lemma number_zeros : forall l, number l (map (fun _ => 0%Z) l) = 0%Z.
Proof. induction l; cbn; auto. Qed.
Lemma column_first : column_sigma n ps 0%nat = 0%nat.
Proof.
  pose proof (column_sigma_number _ (zero_valid n Sh)) as E. rewrite number_zero in E. cbn in E. rewrite E.
  rewrite (reordered_map ps _ Ps (fun _ => 0%Z) 0%Z) by auto. rewrite number_zeros. reflexivity.
Qed.
End Numbers.

(** ** Rows *)
Lemma col_max_map2 a : forall b, col_max a b = map2 (fun x y => if fle x y then y else x) a b.
Proof. induction a as [|x a IH]; intros [|y b]; cbn; auto. rewrite IH. auto. Qed.

Section Rows.
Variable ps : list nat.
Variable m : nat.
Hypothesis Ps : Permutation ps (seq 0 m).
Notation re := (reordered NaN ps).

Lemma reordered_fold rs : forall r, length r = m -> (forall s, In s rs -> length s = m) -> fold_left col_max (map re rs) (re r) = re (fold_left col_max rs r).
Proof.
  induction rs as [|s rs IH]; intros r Lr Ls; [reflexivity|]. cbn [map fold_left].
  assert (Lss : length s = m) by (apply Ls; left; auto).
  rewrite col_max_map2, <- (reordered_map2 ps m Ps _ NaN NaN NaN r s Lr Lss), <- col_max_map2. apply IH.
  - rewrite col_max_length; lia.
  - intros t I. apply Ls. right. auto.
Qed.
Lemma reordered_repeat {A} (d x : A) : reordered d ps (repeat x m) = repeat x m.
Proof.
  apply nth_error_ext. intro j. rewrite reordered_nth.
  destruct (nth_error ps j) as [p|] eqn:E; cbn [option_map].
  - pose proof (ps_below ps m Ps p (nth_error_In _ _ E)).
    assert (Hj : (j < m)%nat) by (rewrite <- (ps_length ps m Ps); apply nth_error_Some; congruence).
    rewrite (nth_error_nth' (repeat x m) x) by (rewrite repeat_length; auto). f_equal. rewrite (nth_indep _ d x) by (rewrite repeat_length; auto). rewrite !nth_repeat. auto.
  - symmetry. apply nth_error_None. rewrite repeat_length, <- (ps_length ps m Ps). apply nth_error_None. auto.
Qed.
Lemma reordered_n_bins rows : (forall r, In r rows -> length r = m) -> data_n_bins m (map re rows) = reordered 0%Z ps (data_n_bins m rows).
Proof.
  intro L. unfold data_n_bins.
  assert (F : filter row_finite_semi_positive (map re rows) = map re (filter row_finite_semi_positive rows)).
  { induction rows as [|r rows IH]; [reflexivity|]. cbn [map filter]. rewrite (reordered_complete ps m Ps) by (apply L; left; auto).
    rewrite IH by (intros; apply L; right; auto). destruct (row_finite_semi_positive r); reflexivity. }
  rewrite F. destruct (filter row_finite_semi_positive rows) as [|r rs] eqn:E; cbn [map].
  - rewrite reordered_repeat. reflexivity.
  - assert (Lf : forall s, In s (r :: rs) -> length s = m) by (intros s I; rewrite <- E in I; apply filter_In in I; apply L; tauto).
    rewrite reordered_fold by (try (apply Lf; left; auto); intros; apply Lf; right; auto).
    symmetry. apply (reordered_map ps m Ps). clear -Lf. assert (Lr : length r = m) by (apply Lf; left; auto).
    assert (Ls : forall s, In s rs -> length s = m) by (intros; apply Lf; right; auto). clear Lf. revert r Lr. induction rs as [|s rs IH]; intros r Lr; cbn [fold_left]; auto.
    apply IH; [intros; apply Ls; right; auto|]. rewrite col_max_length; rewrite ?(Ls s (or_introl eq_refl)); auto.
Qed.
Lemma reordered_lex n row : length n = m -> length row = m -> valid_tuple n (map floor_of row) ->
  lex_value (reordered 0%Z ps n) (re row) = number (reordered 0%Z ps n) (reordered 0%Z ps (map floor_of row)).
Proof.
  intros Ln Lr V. unfold lex_value. rewrite <- (reordered_map ps m Ps floor_of NaN 0%Z) by auto. apply dot_number.
  rewrite !(reordered_length ps m Ps). reflexivity.
Qed.
Lemma floors_below_spec : forall row n, length row = length n -> floors_below row n = true <-> Forall2 (fun x k => isfinite x && nonneg x && (floor_of x <? k)%Z = true) row n.
Proof.
  induction row as [|x row IH]; intros [|k n] L; cbn in L; try discriminate; cbn [floors_below]; [split; auto|].
  rewrite andb_true_iff, IH by lia. split; [intros [H1 H2]; constructor; auto|intro H; inversion H; auto].
Qed.
Lemma reordered_floors row n : length row = m -> length n = m -> floors_below (re row) (reordered 0%Z ps n) = floors_below row n.
Proof.
  intros Lr Ln. apply eq_true_iff_eq. rewrite !floors_below_spec by (rewrite ?(reordered_length ps m Ps); congruence). split.
  - apply (reordered_Forall2_inv ps m Ps); auto.
  - apply (reordered_Forall2 ps m Ps); auto.
Qed.
End Rows.

Lemma floors_valid row n : length row = length n -> floors_below row n = true -> valid_tuple n (map floor_of row).
Proof.
  intros L F. apply floors_below_spec in F; auto. clear L. induction F as [|x k row n H _ IH]; cbn; constructor; auto.
  apply andb_prop in H. destruct H as [H H3]. apply andb_prop in H. destruct H as [H1 H2]. apply Z.ltb_lt in H3. split; [|auto].
  destruct x as [q| | |]; try discriminate. unfold nonneg in H2. apply fle_Fin in H2. cbn. apply Qfloor_resp_le in H2. exact H2.
Qed.

(** ** One feature group *)
Section Group.
Variables (ps : list nat) (f f' : feature).
Hypothesis Dim : (1 <= f_dim f)%nat.
Hypothesis Dim' : f_dim f' = f_dim f.
Hypothesis Ps : Permutation ps (seq 0 (f_dim f)).
Hypothesis Wd : forall r, In r (f_rows f) -> length r = f_dim f.
Hypothesis Rw : f_rows f' = map (reordered NaN ps) (f_rows f).
Let n := f_nbins f.

Lemma column_width r : In r (f_rows f') -> length r = f_dim f'.
Proof. rewrite Rw, Dim'. intro I. apply in_map_iff in I. destruct I as (s & <- & I). apply (reordered_length ps _ Ps). Qed.
Lemma column_nbins : f_nbins f' = reordered 0%Z ps n.
Proof. rewrite !f_nbins_data, Dim', Rw. apply (reordered_n_bins ps _ Ps). exact Wd. Qed.
Lemma column_length : length n = f_dim f.
Proof. apply f_nbins_length. exact Wd. Qed.
Let Psn : Permutation ps (seq 0 (length n)).
Proof. rewrite column_length. exact Ps. Qed.
Lemma column_finite : f_finite f' = f_finite f.
Proof. unfold f_finite. rewrite column_nbins, !size_prod, (reordered_size ps _ Ps) by apply column_length. reflexivity. Qed.
Definition group_sigma : nat -> nat := if Nat.eqb (f_finite f) 0 then fun k => k else column_sigma n ps.
Lemma group_sigma_bijection : bijection (f_finite f) group_sigma.
Proof.
  unfold group_sigma. destruct (Nat.eqb_spec (f_finite f) 0) as [E|E].
  - rewrite E. split; [|split]; auto. intros a b H; auto.
  - destruct (f_shape_or_empty f Dim Wd) as [(S1 & S2 & S3)|(_ & E2 & _)]; [|lia]. rewrite S2. apply column_bijection; auto.
Qed.
Lemma group_sigma_first : group_sigma 0%nat = 0%nat.
Proof.
  unfold group_sigma. destruct (Nat.eqb_spec (f_finite f) 0) as [E|E]; auto.
  destruct (f_shape_or_empty f Dim Wd) as [(S1 & S2 & S3)|(_ & E2 & _)]; [|lia]. apply column_first; auto.
Qed.
Lemma column_lex : f_lex f' = map group_sigma (f_lex f).
Proof.
  pose proof column_length as Ln.
  apply nth_error_ext. intro j.
  destruct (nth_error (f_rows f) j) as [row|] eqn:Ej.
  2:{ assert (X : nth_error (f_lex f) j = None) by (apply nth_error_None; rewrite f_lex_length; apply nth_error_None; auto).
      rewrite nth_error_map, X. apply nth_error_None. rewrite f_lex_length, Rw, map_length. apply nth_error_None. auto. }
  assert (Ej' : nth_error (f_rows f') j = Some (reordered NaN ps row)) by (rewrite Rw, nth_error_map, Ej; auto).
  pose proof (f_lex_nth f Dim Wd j row Ej) as E1. pose proof (f_lex_nth f' ltac:(lia) column_width j _ Ej') as E2.
  rewrite nth_error_map.
  rewrite (nth_error_nth' (f_lex f') 0%nat) by (rewrite f_lex_length; apply nth_error_Some; congruence).
  rewrite (nth_error_nth' (f_lex f) 0%nat) by (rewrite f_lex_length; apply nth_error_Some; congruence).
  cbn [option_map]. f_equal. rewrite E1, E2. pose proof (nth_error_In _ _ Ej) as In1. pose proof (Wd row In1) as Lr.
  rewrite (reordered_complete ps _ Ps row Lr). destruct (row_finite_semi_positive row) eqn:C.
  - pose proof (data_rows_valid (f_dim f) (f_rows f) row Wd In1 C) as RV. rewrite <- f_nbins_data in RV. fold n in RV.
    destruct (valid_floors n row ltac:(congruence) RV) as [_ V].
    destruct (f_shape_or_empty f Dim Wd) as [(S1 & S2 & S3)|(_ & _ & E3)]; [|rewrite (E3 row In1) in C; discriminate].
    unfold group_sigma. destruct (Nat.eqb_spec (f_finite f) 0) as [E|E]; [lia|].
    rewrite column_nbins, (reordered_lex ps _ Ps n row Ln Lr V).
    change (lex_value (f_nbins f) row) with (lex_value n row). unfold lex_value at 1.
    rewrite dot_number by (rewrite map_length; congruence). symmetry. apply column_sigma_number; auto.
  - rewrite column_finite. symmetry. apply group_sigma_bijection. auto.
Qed.
Lemma column_rowpred s t a b row : s_agg s = Some a -> s_agg t = Some b -> length a = S (f_finite f) -> renumbered group_sigma a b ->
  length row = f_dim f -> rowpred (store f' t) (reordered NaN ps row) = rowpred (store f s) row.
Proof.
  intros Ha Hb La Ra Lr. pose proof column_length as Ln.
  assert (Miss : nth (f_finite f) b 0 = nth (f_finite f) a 0).
  { rewrite <- (proj2 (proj2 group_sigma_bijection) (f_finite f)) at 1 by auto. apply renumbered_nth. auto. }
  unfold rowpred. rewrite (reordered_complete ps _ Ps row Lr).
  unfold store. cbn [m_smoother m_missing]. rewrite column_finite, Ha, Hb, Miss.
  destruct (row_finite_semi_positive row) eqn:C; [|reflexivity]. destruct (Nat.eqb_spec (f_finite f) 0) as [E|E]; [reflexivity|]. cbn [negb].
  unfold smoother_predict. cbn [m_dim m_values m_nbins]. rewrite Dim'.
  destruct (f_shape_or_empty f Dim Wd) as [(S1 & S2 & S3)|(_ & E2 & _)]; [|lia].
  destruct (Nat.ltb_spec (f_dim f) 2) as [Hd|Hd].
  - assert (D1 : f_dim f = 1%nat) by lia.
    assert (P0 : ps = [0%nat]). { pose proof Ps as P1. rewrite D1 in P1. apply Permutation_sym, Permutation_length_1_inv in P1. auto. }
    rewrite D1 in Lr. destruct row as [|x [|? ?]]; try discriminate. rewrite P0. cbn [reordered map nth].
    assert (Same : b = a).
    { apply (renumbered_same group_sigma); auto. intro j. unfold group_sigma. destruct (Nat.eqb_spec (f_finite f) 0); [lia|].
      rewrite D1 in Ln. unfold column_sigma. fold n in S1, S2. destruct (Nat.ltb_spec j (Z.to_nat (size n))) as [Hj|Hj]; auto.
      destruct n as [|k [|? ?]] eqn:En; try discriminate. rewrite P0. cbn [reordered map nth].
      pose proof (number_digits [k] S1 (Z.of_nat j) ltac:(lia)) as Dg. pose proof (digits_valid [k] S1 (Z.of_nat j)) as V.
      pose proof (valid_length _ _ V) as Lv. destruct (digits [k] (Z.of_nat j)) as [|i [|? ?]]; try discriminate. cbn [nth]. rewrite Dg. lia. }
    rewrite Same. reflexivity.
  - destruct (Nat.eqb_spec (f_finite f) 0); [lia|].
    rewrite column_nbins. fold n. fold n in S1. rewrite !set_n_bins_shape by (auto; apply (reordered_shape ps _ Ps); auto).
    unfold multidim_predict. rewrite (reordered_floors ps _ Ps row n Lr Ln). destruct (floors_below row n) eqn:Fb; [|reflexivity].
    pose proof (floors_valid row n ltac:(congruence) Fb) as V.
    pose proof (number_range _ _ V) as Rg.
    rewrite <- (reordered_map ps _ Ps floor_of NaN 0%Z) by auto.
    rewrite !dot_number by (rewrite ?(reordered_length ps _ Ps), ?map_length; congruence).
    rewrite <- column_sigma_number by auto. 
    assert (G : column_sigma n ps = group_sigma) by (unfold group_sigma; destruct (Nat.eqb_spec (f_finite f) 0); [lia|reflexivity]).
    rewrite G. apply renumbered_nth. apply renumbered_firstn; auto. apply group_sigma_bijection.
Qed.
End Group.
