(** The binning counts -9 and -999 as ordinary training values. *)
From Coq Require Import ZArith NArith QArith List Bool Lia.
From Verif.Proofs Require Import NumFacts FnumOrder EcdfFacts EquivFacts TransformFacts FitUser BinningExamples.
From Verif.Model Require Import Num BinarySearch Flags Ecdf BinTransform.
From Verif.Spec Require Import BinningSpec MagicSpec.
Import ListNotations.
Local Open Scope Q_scope.

Definition rank (x : fnum) (l : list fnum) : nat := length (filter (fun v => flt v x) l).
Lemma flt_feq_l a b x : feq a b = true -> flt a x = flt b x.
Proof.
  intro E. apply feq_iff in E. destruct E as [E1 E2]. destruct (flt a x) eqn:A, (flt b x) eqn:B; auto.
  - rewrite (fle_lt_trans _ _ _ E2 A) in B. discriminate.
  - rewrite (fle_lt_trans _ _ _ E1 B) in A. discriminate.
Qed.
Lemma rank_nth x : forall l r v, StrictSorted l -> nth_error l r = Some v -> feq v x = true -> rank x l = r.
Proof.
  intros l r v H. revert r. induction H as [|a l Ha Hlt Hs IH]; intros r E F; [destruct r; discriminate|].
  unfold rank. cbn [filter]. destruct r as [|r]; cbn [nth_error] in E.
  - injection E as ->. rewrite (flt_feq_l _ _ _ F), flt_irrefl.
    rewrite (proj2 (length_zero_iff_nil _)); auto. destruct (filter _ l) as [|y k] eqn:Q; auto.
    assert (I : In y (y :: k)) by (left; auto). rewrite <- Q in I. apply filter_In in I. destruct I as [I L].
    specialize (Hlt y I). apply feq_iff in F. pose proof (flt_trans _ _ _ Hlt L) as X.
    pose proof (flt_le_trans _ _ _ X (proj2 F)) as Y. rewrite flt_irrefl in Y. discriminate.
  - assert (L : flt a x = true).
    { apply flt_le_trans with v; [apply Hlt; apply nth_error_In in E; exact E|]. apply feq_iff in F. tauto. }
    rewrite L. cbn [length]. f_equal. apply IH; auto.
Qed.
Lemma rank_same x l l' : Forall2 (fun a b => feq a b = true) l l' -> rank x l = rank x l'.
Proof.
  unfold rank. induction 1 as [|a b l l' E _ IH]; [reflexivity|]. cbn [filter]. rewrite (flt_feq_l _ _ x E).
  destruct (flt b x); cbn [length]; rewrite IH; reflexivity.
Qed.
Lemma rank_split (c : fnum -> bool) x l : rank x l = (rank x (filter (fun v => negb (c v)) l) + rank x (filter c l))%nat.
Proof.
  unfold rank. induction l as [|a l IH]; [reflexivity|]. cbn [filter]. destruct (c a); cbn [negb filter]; destruct (flt a x); cbn [length]; lia.
Qed.
Lemma filter_sorted c l : StrictSorted l -> StrictSorted (filter c l).
Proof.
  induction 1 as [|a l Ha Hlt Hs IH]; cbn [filter]; [constructor|]. destruct (c a); auto. constructor; auto.
  intros x I. apply filter_In in I. apply Hlt. tauto.
Qed.
Lemma feq_same_l a b c : feq a b = true -> feq a c = feq b c.
Proof.
  intro E. destruct (feq a c) eqn:A, (feq b c) eqn:B; auto.
  - assert (X : feq b c = true); [|congruence]. apply feq_trans with a; auto. rewrite feq_sym; auto.
  - assert (X : feq a c = true); [|congruence]. apply feq_trans with b; auto.
Qed.
Lemma existsb_feq l a b : feq a b = true -> existsb (feq a) l = existsb (feq b) l.
Proof. intro E. induction l as [|c l IH]; [reflexivity|]. cbn [existsb]. rewrite IH, (feq_same_l a b c E). reflexivity. Qed.
Lemma is_magic_feq a b : feq a b = true -> is_magic a = is_magic b.
Proof. apply existsb_feq. Qed.
Lemma filter_occurs c l : (forall a b, feq a b = true -> c a = c b) -> forall v, occurs v (filter c l) <-> occurs v l /\ c v = true.
Proof.
  intros C v. split.
  - intros (x & I & E). apply filter_In in I. destruct I as [I K]. split; [exists x; auto|]. rewrite <- (C _ _ E). exact K.
  - intros ((x & I & E) & K). exists x. split; auto. apply filter_In. split; auto. rewrite (C _ _ E). exact K.
Qed.
Lemma filter_fst (c : fnum -> bool) (zw : list sample) : map fst (filter (fun p => c (fst p)) zw) = filter c (map fst zw).
Proof. induction zw as [|[x w] zw IH]; [reflexivity|]. cbn [filter map fst]. destruct (c x); cbn [map fst]; rewrite IH; reflexivity. Qed.
Lemma existsb_occurs l v : existsb (feq v) l = true <-> occurs v l.
Proof.
  rewrite existsb_exists. unfold occurs. split; intros (x & I & E); exists x; split; auto; rewrite feq_sym; auto.
Qed.
Lemma magic_sorted : StrictSorted magic_numbers.
Proof.
  apply SS_cons; [discriminate|intros x [<-|[]]; reflexivity|].
  apply SS_cons; [discriminate|intros x []|apply SS_nil].
Qed.
Lemma magic_occurs v : is_magic v = true <-> occurs v magic_numbers.
Proof. apply existsb_occurs. Qed.
Lemma not_regular_magic prop x : has_magic_missing_set prop = true -> regular prop x -> is_magic x = false.
Proof.
  intros M [_ H]. destruct (is_magic x) eqn:E; auto. destruct H. split; auto. unfold magic. cbn [is_magic magic_numbers existsb] in E.
  unfold is_magic, magic_numbers in E. cbn [existsb] in E. rewrite !orb_true_iff in E. destruct E as [E|[E|E]]; auto. discriminate.
Qed.

Definition without_magic (zw : list sample) : list sample := filter (fun p => negb (is_magic (fst p))) zw.
Lemma nan_is_without prop n eps tol zw : fit_column prop n eps tol (magic_as_nan zw) = fit_column prop n eps tol (without_magic zw).
Proof.
  rewrite <- (nan_ignored prop n eps tol (magic_as_nan zw)), <- (nan_ignored prop n eps tol (without_magic zw)). f_equal.
  unfold magic_as_nan, without_magic. induction zw as [|[x w] zw IH]; [reflexivity|]. cbn [map filter fst snd].
  destruct (is_magic x); cbn [negb isnan filter fst]; rewrite IH; reflexivity.
Qed.

(** Bins of the other values, with and without the rows in question. *)
Theorem magic_shifts prop n eps tol zw xs ys ys' i x :
  check_flags_consistency prop = FlagsOk -> is_continuous_set prop = false -> has_magic_missing_set prop = true -> (2 <= n)%Z ->
  positive_weights zw -> finite_or_nan zw -> 0 <= eps -> eps < 1 ->
  transform_column prop (fit_column prop n eps tol zw) xs = Some ys ->
  transform_column prop (fit_column prop n eps tol (magic_as_nan zw)) xs = Some ys' ->
  nth_error xs i = Some x -> regular prop x -> occurs x (map fst zw) ->
  exists b, nth_error ys' i = Some (Fin (inject_Z (Z.of_nat b))) /\
    nth_error ys i = Some (Fin (inject_Z (Z.of_nat (b + magic_below zw x)))).
Proof.
  intros Hc Hd Hm Hn Hp Hf E0 E1 T T' X R O. rewrite nan_is_without in T'.
  pose proof (not_regular_magic _ _ Hm R) as NM.
  assert (Hp' : positive_weights (without_magic zw)) by (intros a w I; apply filter_In in I; apply (Hp a w); tauto).
  assert (Hf' : finite_or_nan (without_magic zw)) by (intros a w I; apply filter_In in I; apply (Hf a w); tauto).
  assert (F1 : map fst (without_magic zw) = filter (fun v => negb (is_magic v)) (map fst zw)) by (apply (filter_fst (fun v => negb (is_magic v)))).
  assert (NC : forall a b, feq a b = true -> negb (is_magic a) = negb (is_magic b)) by (intros a b E; rewrite (is_magic_feq _ _ E); reflexivity).
  assert (O' : occurs x (map fst (without_magic zw))) by (rewrite F1; apply filter_occurs; auto; split; auto; rewrite NM; reflexivity).
  assert (W : forall z : list sample, occurs x (map fst z) -> exists v w, In (v, w) z /\ v <> NaN).
  { intros z (v & I & E). apply in_map_iff in I. destruct I as ([v' w] & <- & I). exists v', w. split; auto. apply feq_not_nan in E. tauto. }
  destruct (discrete_boundaries prop n eps tol zw Hc Hd Hn Hp (W _ O)) as (e & bb & cc & Fi & In1 & Oc1).
  destruct (discrete_boundaries prop n eps tol (without_magic zw) Hc Hd Hn Hp' (W _ O')) as (e' & bb' & cc' & Fi' & In2 & Oc2).
  rewrite Fi in T. rewrite Fi' in T'.
  destruct (discrete_training_value prop n eps tol zw e bb cc xs ys i x Hc Hd Hn Hp Hf E0 E1 Fi T X R O) as (r & v & N1 & V1 & Y1).
  destruct (discrete_training_value prop n eps tol (without_magic zw) e' bb' cc' xs ys' i x Hc Hd Hn Hp' Hf' E0 E1 Fi' T' X R O') as (r' & v' & N2 & V2 & Y2).
  exists r'. split; auto. rewrite Y1. repeat f_equal.
  assert (S1 : StrictSorted (tl bb)).
  { destruct (discrete_fit prop n eps tol zw Hc Hd Hn Hp (W _ O)) as (e2 & bb2 & cc2 & Fi2 & Ht & _). rewrite Fi in Fi2. injection Fi2 as <- <- <-. rewrite Ht. apply z_unique_sorted. }
  assert (S2 : StrictSorted (tl bb')).
  { destruct (discrete_fit prop n eps tol (without_magic zw) Hc Hd Hn Hp' (W _ O')) as (e2 & bb2 & cc2 & Fi2 & Ht & _). rewrite Fi' in Fi2. injection Fi2 as <- <- <-. rewrite Ht. apply z_unique_sorted. }
  rewrite <- (rank_nth x (tl bb) r v S1 N1 V1), <- (rank_nth x (tl bb') r' v' S2 N2 V2).
  rewrite (rank_split is_magic x (tl bb)). f_equal.
  - apply rank_same, sorted_same_values; [apply filter_sorted, S1|exact S2|]. intro u. rewrite Oc2, F1, !filter_occurs by exact NC. rewrite Oc1. reflexivity.
  - unfold magic_below. transitivity (rank x (filter (fun m => existsb (feq m) (map fst zw)) magic_numbers)).
    + apply rank_same, sorted_same_values; [apply filter_sorted, S1|apply filter_sorted, magic_sorted|]. intro u.
      rewrite !filter_occurs.
      * rewrite existsb_occurs, Oc1, magic_occurs. tauto.
      * intros a b E. apply existsb_feq. exact E.
      * apply is_magic_feq.
    + unfold rank. f_equal. generalize magic_numbers. induction l as [|m l IH]; [reflexivity|]. cbn [filter]. destruct (existsb (feq m) (map fst zw)); cbn [filter andb]; [destruct (flt m x)|]; rewrite IH; reflexivity.
Qed.

Definition coded (l : list Z) : list sample := map (fun v => (Fin (inject_Z v), 1%Q)) l.
Definition half_missing : list sample := coded [-999; -999; -999; -999; 1; 2; 3; 4]%Z.
Definition bins (l : list Z) : option (list fnum) := Some (map (fun b => Fin (inject_Z b)) l).
(** Discrete values move to other bins, continuous ones lose all their bins but one. *)
Theorem magic_counts :
  check_flags_consistency 1042 = FlagsOk /\ is_continuous_set 1042 = false /\ has_magic_missing_set 1042 = true /\
  transform_column 1042 (fit_column 1042 2 (1#1000000000) (1#10) half_missing) (map fst half_missing) = bins [-1; -1; -1; -1; 1; 2; 3; 4]%Z /\
  transform_column 1042 (fit_column 1042 2 (1#1000000000) (1#10) (magic_as_nan half_missing)) (map fst half_missing) = bins [-1; -1; -1; -1; 0; 1; 2; 3]%Z /\
  check_flags_consistency 1041 = FlagsOk /\ is_continuous_set 1041 = true /\ has_magic_missing_set 1041 = true /\
  transform_column 1041 (fit_column 1041 2 (1#1000000000) (1#10) half_missing) (map fst half_missing) = bins [-1; -1; -1; -1; 1; 1; 1; 1]%Z /\
  transform_column 1041 (fit_column 1041 2 (1#1000000000) (1#10) (magic_as_nan half_missing)) (map fst half_missing) = bins [-1; -1; -1; -1; 0; 0; 1; 1]%Z.
Proof. vm_compute. repeat split. Qed.
Lemma half_missing_good : positive_weights half_missing /\ finite_or_nan half_missing /\ regular 1042 (Fin (inject_Z 3)) /\
  occurs (Fin (inject_Z 3)) (map fst half_missing) /\ magic_below half_missing (Fin (inject_Z 3)) = 1%nat.
Proof.
  split; [|split; [|split; [|split]]].
  - intros x w I. apply in_map_iff in I. destruct I as (v & E & _). injection E as _ <-. reflexivity.
  - intros x w I. apply in_map_iff in I. destruct I as (v & E & _). injection E as <- _. left. reflexivity.
  - split; [reflexivity|]. intros [_ [H|H]]; discriminate H.
  - exists (Fin (inject_Z 3)). split; [|reflexivity]. cbn. tauto.
  - reflexivity.
Qed.
