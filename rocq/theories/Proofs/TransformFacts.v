(** Properties of the bin-number transform (C02-C05). *)
From Coq Require Import ZArith NArith QArith List Bool Lia Lqa ZifyBool.
From Verif.Model Require Import Num BinarySearch Flags Ecdf BinTransform.
From Verif.Spec Require Import SearchSpec FlagSpec BinningSpec.
From Verif.Proofs Require Import NumFacts FnumOrder BinarySearchFacts FlagFacts EcdfFacts ReduceFacts FitFacts.
Import ListNotations.
Local Open Scope Z_scope.

Lemma map_opt_map {A B} (f : A -> option B) (g : A -> B) l :
  (forall x, In x l -> f x = Some (g x)) -> map_opt f l = Some (map g l).
Proof.
  induction l as [|a r IH]; intro H; cbn; auto.
  rewrite (H a) by (left; auto). rewrite IH by (intros; apply H; right; auto). reflexivity.
Qed.

Lemma select_in {A} (m : A -> bool) l x : In x (select (map m l) l) -> In x l /\ m x = true.
Proof.
  induction l as [|a r IH]; cbn; [tauto|]. destruct (m a) eqn:E; cbn.
  - intros [->|H]; auto. apply IH in H. tauto.
  - intro H. apply IH in H. tauto.
Qed.

Lemma scatter_map {A} (m : A -> bool) (g : A -> A) l :
  scatter (map m l) l (map g (select (map m l) l)) = map (fun x => if m x then g x else x) l.
Proof.
  induction l as [|a r IH]; cbn; auto. destruct (m a); cbn; f_equal; apply IH.
Qed.

(** The value computed for one element. *)
Definition cont_index (z : list fnum) (e x : fnum) : Z :=
  match ge_search z (fsub x e) true with Found i => i | _ => -1 end.
Definition disc_value (z : list fnum) (e x : fnum) : fnum :=
  match eq_one z x (arange (length z)) e with Some o => nan_or o | None => NaN end.
Definition tvalue (prop : N) (e : fnum) (z : list fnum) (x : fnum) : fnum :=
  if is_finite_prop prop x then
    if is_continuous_set prop then Fin (inject_Z (cont_index z e x))
    else match disc_value z e x with NaN => MISSING | v => v end
  else MISSING.

Lemma arange_nth n i v : nth_error (arange n) i = Some v <-> (i < n)%nat /\ v = Fin (inject_Z (Z.of_nat i)).
Proof.
  unfold arange. rewrite nth_error_map. split.
  - destruct (nth_error (seq 0 n) i) as [k|] eqn:E; [|discriminate]. cbn. intro H. injection H as <-.
    assert (L : (i < n)%nat) by (rewrite <- (seq_length n 0); apply nth_error_Some; congruence).
    split; auto. rewrite (nth_error_nth' _ 0%nat) in E by (rewrite seq_length; auto).
    rewrite seq_nth in E by auto. injection E as <-. reflexivity.
  - intros [L ->]. rewrite (nth_error_nth' _ 0%nat) by (rewrite seq_length; auto).
    rewrite seq_nth by auto. reflexivity.
Qed.

Lemma arange_length n : length (arange n) = n.
Proof. unfold arange. rewrite map_length, seq_length. reflexivity. Qed.

Lemma cont_index_spec z e x : sorted_array z ->
  exists i, first_ge z (fsub x e) 0 (Z.of_nat (length z)) i /\
       ge_search z (fsub x e) true = Found (cont_index z e x) /\
       cont_index z e x = Z.min i (Z.of_nat (length z) - 1).
Proof.
  intro Hs. unfold cont_index.
  destruct (ge_search_inclusive z (fsub x e) Hs) as (i & -> & Hi). exists i. auto.
Qed.

Lemma cont_index_range z e x : sorted_array z -> -1 <= cont_index z e x < Z.of_nat (length z) \/ (z = [] /\ cont_index z e x = -1).
Proof.
  intro Hs. destruct (cont_index_spec z e x Hs) as (i & (Hb & _) & _ & ->).
  destruct z; [right; split; auto; cbn in *; lia|left; cbn [length] in *; lia].
Qed.

(** A discrete search gives the missing bin or a neighbour within epsilon. *)
Lemma eq_one_spec {A} z x (u : list A) e : sorted_array z -> z <> [] -> length u = length z -> fle x x = true ->
  exists i, last_le z (fadd x e) i /\
    ((i = -1 /\ eq_one z x u e = Some None) \/
     (0 <= i /\ exists zi ui, elem z i zi /\ nth_error u (Z.to_nat i) = Some ui /\
        eq_one z x u e = Some (if check_equal zi x e then Some ui else None))).
Proof.
  intros Hs Hne Hlu Hx. unfold eq_one.
  destruct (le_search_exclusive z (fadd x e) Hs) as (i & -> & Hi).
  exists i. split; auto.
  destruct Hi as (Hb & H1 & H2).
  assert (Hlen : 0 < Z.of_nat (length z)) by (destruct z; [congruence|cbn; lia]).
  destruct (Z.eq_dec i (-1)) as [->|Hi].
  - left. split; auto. rewrite pyget_neg1 by auto.
    destruct (nth_error z (length z - 1)) as [v|] eqn:E.
    2:{ apply nth_error_None in E. lia. }
    assert (Ev : elem z (Z.of_nat (length z - 1)) v) by (split; [lia|rewrite Nat2Z.id; auto]).
    specialize (H2 _ _ Ev ltac:(lia)).
    destruct (check_equal v x e) eqn:C; auto. exfalso.
    unfold check_equal in C. destruct v as [a| | |], x as [b| | |]; try discriminate.
    cbn [fabs fsub fneg fadd] in C. destruct e as [e| | |]; cbn [fadd fle] in H2; try discriminate.
    + apply Qle_bool_false in H2. cbn [fle] in C. apply Qle_bool_iff in C.
      destruct (Qle_bool 0 (a + - b)) eqn:E0; [|apply Qle_bool_false in E0]; lra.
  - right. split; [lia|].
    destruct (pyget_some z i) as [zi [-> Hzi]]; [lia|].
    destruct (pyget_some u i) as [ui [-> Hui]]; [lia|].
    exists zi, ui. split; [split; [lia|auto]|]. split; auto. destruct (check_equal zi x e); auto.
Qed.

Lemma disc_value_spec z e x : sorted_array z -> z <> [] -> fle x x = true ->
  eq_one z x (arange (length z)) e <> None /\
  ((disc_value z e x = NaN) \/
   exists i zi, last_le z (fadd x e) i /\ 0 <= i < Z.of_nat (length z) /\ elem z i zi /\
      check_equal zi x e = true /\ disc_value z e x = Fin (inject_Z i)).
Proof.
  intros Hs Hne Hx. unfold disc_value.
  destruct (eq_one_spec z x (arange (length z)) e Hs Hne (arange_length _) Hx)
    as (i & Hi & [[-> ->]|(Hi0 & zi & ui & Ez & Hu & ->)]).
  - split; [discriminate|left; reflexivity].
  - split; [discriminate|]. destruct (check_equal zi x e) eqn:C; [|left; reflexivity].
    right. apply arange_nth in Hu. destruct Hu as [Hl ->].
    exists i, zi. split; [exact Hi|]. split; [lia|]. split; [exact Ez|]. split; [exact C|]. cbn [nan_or].
    rewrite Z2Nat.id by lia. reflexivity.
Qed.

Lemma is_finite_prop_finite prop x : is_finite_prop prop x = true -> isfinite x = true.
Proof.
  unfold is_finite_prop. destruct (has_magic_missing_set prop); auto.
  intro H. apply andb_prop in H. tauto.
Qed.

Lemma is_finite_prop_bin prop b : -1 <= b -> is_finite_prop prop (Fin (inject_Z b)) = true.
Proof.
  intro H. unfold is_finite_prop. destruct (has_magic_missing_set prop); auto.
  assert (F : forall k, k < -1 -> feq (Fin (inject_Z b)) (Fin (inject_Z k)) = false).
  { intros k Hk. destruct (feq _ _) eqn:E; auto. apply feq_Fin in E.
    rewrite inject_Z_injective in E. lia. }
  rewrite !F by lia. reflexivity.
Qed.

(** The transform acts elementwise: no value depends on the other rows. *)
Lemma transform_elementwise prop e bb cc xs :
  sorted_array (tl bb) -> (is_continuous_set prop = false -> tl bb <> []) ->
  transform_column prop (Fitted e bb cc) xs = Some (map (tvalue prop e (tl bb)) xs).
Proof.
  intros Hs Hne. unfold transform_column. set (z := tl bb) in *.
  destruct (is_continuous_set prop) eqn:Ec.
  - unfold ge_multi. rewrite map_length, Nat.eqb_refl. cbn [negb].
    rewrite (map_opt_map _ (fun y => match ge_search z y true with Found i => i | _ => -1 end)).
    2:{ intros x _. destruct (ge_search_inclusive z x Hs) as (i & -> & _). reflexivity. }
    rewrite !map_map. f_equal.
    rewrite (scatter_map (is_finite_prop prop) (fun x => Fin (inject_Z (cont_index z e x)))).
    rewrite map_map. apply map_ext. intro x. unfold tvalue. rewrite Ec.
    destruct (is_finite_prop prop x) eqn:E.
    + rewrite is_finite_prop_bin; auto.
      destruct (cont_index_range z e x Hs) as [H|[_ H]]; lia.
    + rewrite E. reflexivity.
  - unfold eq_multi. rewrite Nat.eqb_refl, arange_length, Nat.eqb_refl. cbn [negb].
    rewrite (map_opt_map _ (fun x => match eq_one z x (arange (length z)) e with Some o => o | None => None end)).
    2:{ intros x Hx. apply select_in in Hx. destruct Hx as [_ Hx]. apply is_finite_prop_finite in Hx.
        destruct (disc_value_spec z e x Hs (Hne eq_refl)) as [H _]; [apply fle_refl; destruct x; discriminate|].
        destruct (eq_one z x (arange (length z)) e); congruence. }
    rewrite map_map. f_equal.
    match goal with |- context [scatter _ _ ?v] =>
      replace v with (map (fun x => disc_value z e x) (select (map (is_finite_prop prop) xs) xs)) end.
    2:{ apply map_ext. intro x. unfold disc_value. destruct (eq_one z x (arange (length z)) e); reflexivity. }
    rewrite (scatter_map (is_finite_prop prop) (fun x => disc_value z e x)).
    rewrite map_map. apply map_ext. intro x. unfold tvalue. rewrite Ec.
    destruct (is_finite_prop prop x) eqn:E; [|rewrite E; reflexivity].
    pose proof (is_finite_prop_finite _ _ E) as Ef.
    destruct (disc_value_spec z e x Hs (Hne eq_refl)) as [_ [H|(i & zi & _ & Hi & _ & _ & H)]];
      [apply fle_refl; destruct x; discriminate| |]; rewrite H.
    + unfold is_finite_prop. destruct (has_magic_missing_set prop); reflexivity.
    + rewrite is_finite_prop_bin by lia. reflexivity.
Qed.

(** ** Fitted columns *)

Lemma consistent_kind prop : check_flags_consistency prop = FlagsOk ->
  is_continuous_set prop = negb (is_ordered_set prop || is_unordered_set prop).
Proof.
  intro H. apply consistency_iff in H. destruct H as [H _].
  destruct (predicates_bits prop) as (H0 & H1 & H2 & _). rewrite H0, H1, H2.
  unfold exactly_one, has_bit in H.
  destruct (N.testbit prop 0), (N.testbit prop 1), (N.testbit prop 2); cbn; intuition congruence.
Qed.

Lemma fitted_transform prop n eps tol zw e bb cc xs :
  check_flags_consistency prop = FlagsOk -> 2 <= n ->
  fit_column prop n eps tol zw = Fitted e bb cc ->
  transform_column prop (Fitted e bb cc) xs = Some (map (tvalue prop e (tl bb)) xs) /\
  sorted_array (tl bb).
Proof.
  intros Hc Hn Hf. pose proof (fit_column_shape prop n eps tol zw Hn) as S. rewrite Hf in S.
  destruct S as (_ & Hs & _ & Hne & Hd).
  assert (Ht : sorted_array (tl bb)) by (destruct bb; [congruence|eapply sorted_tl; eauto]).
  split; auto. apply transform_elementwise; auto.
  intro H. apply Hd. rewrite (consistent_kind _ Hc) in H. destruct (_ || _); [reflexivity|discriminate].
Qed.


Lemma bins_in_range prop n eps tol zw xs :
  check_flags_consistency prop = FlagsOk -> 2 <= n ->
  usable (fit_column prop n eps tol zw) ->
  exists ys, transform_column prop (fit_column prop n eps tol zw) xs = Some ys /\
    length ys = length xs /\
    forall y, In y ys -> is_missing_bin y \/
       exists b, 0 <= b < n_learned (fit_column prop n eps tol zw) /\ is_bin y b.
Proof.
  intros Hc Hn Hu. destruct (fit_column prop n eps tol zw) as [e0|e bb cc| | |] eqn:Ef; try contradiction.
  - exists (map (fun _ => MISSING) xs). split; [reflexivity|]. split; [apply map_length|].
    intros y Hy. apply in_map_iff in Hy. destruct Hy as (x & <- & _). left; reflexivity.
  - destruct (fitted_transform prop n eps tol zw e bb cc xs Hc Hn Ef) as [Ht Hs].
    pose proof (fit_column_shape prop n eps tol zw Hn) as S. rewrite Ef in S.
    destruct S as (_ & _ & _ & Hne & Hd).
    eexists. split; [exact Ht|]. split; [apply map_length|].
    intros y Hy. apply in_map_iff in Hy. destruct Hy as (x & <- & _).
    unfold tvalue. destruct (is_finite_prop prop x) eqn:E; [|left; reflexivity].
    pose proof (is_finite_prop_finite _ _ E) as Ef'.
    assert (L : n_learned (Fitted e bb cc) = Z.of_nat (length (tl bb))).
    { cbn. destruct bb; [congruence|]. cbn [length tl]. lia. }
    rewrite L.
    destruct (is_continuous_set prop) eqn:Ec.
    + destruct (cont_index_range (tl bb) e x Hs) as [H|[_ H]].
      * destruct (Z.eq_dec (cont_index (tl bb) e x) (-1)) as [H1|H1].
        { left. rewrite H1. reflexivity. }
        right. exists (cont_index (tl bb) e x). split; [lia|reflexivity].
      * left. rewrite H. reflexivity.
    + assert (Hnt : tl bb <> []).
      { apply Hd. rewrite (consistent_kind _ Hc) in Ec. destruct (_ || _); [reflexivity|discriminate]. }
      destruct (disc_value_spec (tl bb) e x Hs Hnt) as [_ [H|(i & zi & _ & Hi & _ & _ & H)]];
        [apply fle_refl; destruct x; discriminate| |]; rewrite H.
      * left; reflexivity.
      * right. exists i. split; [lia|reflexivity].
Qed.

(** ** C05 *)

Lemma is_finite_prop_iff prop x :
  is_finite_prop prop x = true <->
  isfinite x = true /\ ~ (has_magic_missing_set prop = true /\ magic x).
Proof.
  unfold is_finite_prop, magic. destruct (has_magic_missing_set prop).
  - rewrite !andb_true_iff, !negb_true_iff.
    destruct (feq x (Fin (inject_Z (-9)))), (feq x (Fin (inject_Z (-999)))); intuition congruence.
  - intuition congruence.
Qed.

Lemma missing_to_missing prop n eps tol zw xs ys i x :
  check_flags_consistency prop = FlagsOk -> 2 <= n ->
  transform_column prop (fit_column prop n eps tol zw) xs = Some ys ->
  nth_error xs i = Some x ->
  isfinite x = false \/ (has_magic_missing_set prop = true /\ magic x) ->
  exists y, nth_error ys i = Some y /\ is_missing_bin y.
Proof.
  intros Hc Hn Ht Hx Hm. destruct (fit_column prop n eps tol zw) as [e0|e bb cc| | |] eqn:Ef; try discriminate.
  - injection Ht as <-. exists MISSING. rewrite nth_error_map, Hx. split; reflexivity.
  - destruct (fitted_transform prop n eps tol zw e bb cc xs Hc Hn Ef) as [Ht' Hs].
    rewrite Ht' in Ht. injection Ht as <-.
    exists (tvalue prop e (tl bb) x). rewrite nth_error_map, Hx. split; [reflexivity|].
    unfold tvalue. destruct (is_finite_prop prop x) eqn:E; [|reflexivity].
    apply is_finite_prop_iff in E. destruct E as [E1 E2]. destruct Hm as [Hm|Hm]; [congruence|tauto].
Qed.

(** Without the flag the magic integers are ordinary numbers: the transform
    does not depend on the magic bit. *)
Lemma no_magic_ordinary prop e z x :
  has_magic_missing_set prop = false -> isfinite x = true ->
  is_continuous_set prop = true -> sorted_array z -> z <> [] ->
  exists b, 0 <= b /\ tvalue prop e z x = Fin (inject_Z b).
Proof.
  intros Hm Hf Hc Hs Hne. unfold tvalue.
  assert (E : is_finite_prop prop x = true) by (apply is_finite_prop_iff; intuition congruence).
  rewrite E, Hc. exists (cont_index z e x). split; auto.
  destruct (cont_index_spec z e x Hs) as (i & (Hb & _) & _ & ->).
  destruct z; [congruence|cbn [length] in *; lia].
Qed.

(** ** C03 *)
Lemma fsub_mono x y e : e <> NaN -> isfinite x = true -> isfinite y = true ->
  fle x y = true -> fle (fsub x e) (fsub y e) = true.
Proof.
  intros He Hx Hy H. destruct x as [x| | |], y as [y| | |]; try discriminate.
  destruct e as [e| | |]; cbn [fsub fneg fadd]; try reflexivity; try congruence.
  apply fle_Fin in H. apply fle_Fin. lra.
Qed.

Lemma cont_index_mono z e x y : sorted_array z -> e <> NaN ->
  isfinite x = true -> isfinite y = true -> fle x y = true -> cont_index z e x <= cont_index z e y.
Proof.
  intros Hs He Hx Hy H.
  destruct (cont_index_spec z e x Hs) as (i & (Bi & I1 & I2) & _ & ->).
  destruct (cont_index_spec z e y Hs) as (j & (Bj & J1 & J2) & _ & ->).
  assert (i <= j); [|lia].
  destruct (Z_le_gt_dec i j) as [|G]; auto. exfalso.
  destruct (pyget_some z j) as [v [_ Hv]]; [lia|].
  assert (Ev : elem z j v) by (split; [lia|auto]).
  specialize (I1 j v Ev ltac:(lia) ltac:(lia)). specialize (J2 j v Ev ltac:(lia) ltac:(lia)).
  unfold fge in *. rewrite (fle_trans (fsub x e) (fsub y e) v) in I1; auto; [discriminate|].
  apply fsub_mono; auto.
Qed.


Lemma regular_finite prop x : regular prop x -> is_finite_prop prop x = true.
Proof. intro H. apply is_finite_prop_iff. exact H. Qed.

Lemma continuous_value prop n eps tol zw e bb cc xs ys i x :
  check_flags_consistency prop = FlagsOk -> is_continuous_set prop = true -> 2 <= n -> (0 <= tol)%Q ->
  fit_column prop n eps tol zw = Fitted e bb cc ->
  transform_column prop (Fitted e bb cc) xs = Some ys ->
  nth_error xs i = Some x -> regular prop x ->
  exists k b, nth_error ys i = Some (Fin (inject_Z b)) /\
    first_ge (tl bb) (fsub x e) 0 (Z.of_nat (length (tl bb))) k /\
    b = Z.min k (Z.of_nat (length (tl bb)) - 1) /\
    0 <= b < Z.of_nat (length (tl bb)).
Proof.
  intros Hc Hcont Hn Ht Hf Hy Hx Hr.
  destruct (fitted_transform prop n eps tol zw e bb cc xs Hc Hn Hf) as [Hy' Hs].
  rewrite Hy' in Hy. injection Hy as <-.
  destruct (cont_index_spec (tl bb) e x Hs) as (k & Hk & _ & Ek).
  pose proof (fit_two prop n eps tol zw e bb cc Hn Ht Hf) as Hne.
  exists k, (cont_index (tl bb) e x). rewrite nth_error_map, Hx. cbn [option_map].
  split; [unfold tvalue; rewrite (regular_finite _ _ Hr), Hcont; reflexivity|].
  split; auto. split; auto. destruct Hk as (Hb & _). rewrite Ek.
  destruct (tl bb); [congruence|cbn [length] in *; lia].
Qed.

Lemma continuous_monotone prop n eps tol zw e bb cc xs ys i j x x' b b' :
  check_flags_consistency prop = FlagsOk -> is_continuous_set prop = true -> 2 <= n ->
  fit_column prop n eps tol zw = Fitted e bb cc ->
  transform_column prop (Fitted e bb cc) xs = Some ys ->
  nth_error xs i = Some x -> nth_error xs j = Some x' ->
  regular prop x -> regular prop x' -> fle x x' = true ->
  nth_error ys i = Some (Fin (inject_Z b)) -> nth_error ys j = Some (Fin (inject_Z b')) ->
  b <= b'.
Proof.
  intros Hc Hcont Hn Hf Hy Hx Hx' Hr Hr' Hle Hb Hb'.
  destruct (fitted_transform prop n eps tol zw e bb cc xs Hc Hn Hf) as [Hy' Hs].
  rewrite Hy' in Hy. injection Hy as <-.
  rewrite nth_error_map, Hx in Hb. rewrite nth_error_map, Hx' in Hb'. cbn [option_map] in *.
  unfold tvalue in *. rewrite (regular_finite _ _ Hr), Hcont in Hb. rewrite (regular_finite _ _ Hr'), Hcont in Hb'.
  injection Hb as <-. injection Hb' as <-.
  apply cont_index_mono; auto.
  - eapply fit_eps_not_nan; eauto.
  - apply Hr.
  - apply Hr'.
Qed.

Lemma first_ge_all z x k : first_ge z x 0 (Z.of_nat (length z)) k ->
  ((forall v, In v z -> fle x v = true) -> k = 0) /\
  ((forall v, In v z -> fle x v = false) -> k = Z.of_nat (length z)).
Proof.
  intros (Hb & H1 & H2). split; intro H.
  - destruct (Z.eq_dec k 0) as [|Hk]; auto. exfalso.
    destruct (pyget_some z 0) as [v [_ Hv]]; [lia|].
    specialize (H1 0 v (conj (Z.le_refl 0) Hv) ltac:(lia) ltac:(lia)).
    unfold fge in H1. rewrite H in H1; [discriminate|]. eapply nth_error_In; eauto.
  - destruct (Z.eq_dec k (Z.of_nat (length z))) as [|Hk]; auto. exfalso.
    destruct (pyget_some z k) as [v [_ Hv]]; [lia|].
    specialize (H2 k v (conj (proj1 Hb) Hv) ltac:(lia) ltac:(lia)).
    unfold fge in H2. rewrite H in H2; [discriminate|]. eapply nth_error_In; eauto.
Qed.

(** ** C04 *)

Lemma discrete_fit prop n eps tol zw :
  check_flags_consistency prop = FlagsOk -> is_continuous_set prop = false -> 2 <= n ->
  positive_weights zw -> (exists x w, In (x, w) zw /\ x <> NaN) ->
  exists e bb cc, fit_column prop n eps tol zw = Fitted e bb cc /\ tl bb = z_unique zw /\
    bb <> [] /\ e = fscale eps (minimal_difference bb) /\ hd_error bb = hd_error (tl bb).
Proof.
  intros Hc Hcont Hn Hp (x & w & Hx & Hxn).
  assert (Hd : is_ordered_set prop || is_unordered_set prop = true).
  { rewrite (consistent_kind _ Hc) in Hcont. destruct (_ || _); auto; discriminate. }
  pose proof (cdf_law zw (positive_no_zero zw Hp)) as (_ & _ & Ho & Hl & _).
  unfold fit_column.
  destruct (z_unique zw) as [|b0 bs] eqn:Ez.
  { assert (O : occurs x []).
    { apply Ho. exists x. split; [apply in_map_iff; exists (x, w); auto|apply feq_refl; auto]. }
    destruct O as (y & [] & _). }
  destruct (cdf_values zw) as [|c0 cs] eqn:Ec; [discriminate|].
  rewrite Hd.
  assert (El : Nat.eqb (length (b0 :: b0 :: bs)) (length (0%Q :: c0 :: cs)) = true).
  { apply Nat.eqb_eq. cbn in *. lia. }
  rewrite El. do 3 eexists. split; [reflexivity|]. repeat split; auto. discriminate.
Qed.

Lemma z_unique_finite zw : finite_or_nan zw -> Forall (fun v => isfinite v = true) (z_unique zw).
Proof.
  intro H. apply Forall_forall. intros v Hv.
  pose proof (StrictSorted_no_nan _ _ (z_unique_sorted zw) Hv) as Hn.
  destruct (z_unique_in _ _ Hv) as [w Hw]. destruct (H v w Hw); congruence.
Qed.

Lemma discrete_training_value prop n eps tol zw e bb cc xs ys i x :
  check_flags_consistency prop = FlagsOk -> is_continuous_set prop = false -> 2 <= n ->
  positive_weights zw -> finite_or_nan zw -> (0 <= eps)%Q -> (eps < 1)%Q ->
  fit_column prop n eps tol zw = Fitted e bb cc ->
  transform_column prop (Fitted e bb cc) xs = Some ys ->
  nth_error xs i = Some x -> regular prop x -> occurs x (map fst zw) ->
  exists r v, nth_error (tl bb) r = Some v /\ feq v x = true /\
    nth_error ys i = Some (Fin (inject_Z (Z.of_nat r))).
Proof.
  intros Hc Hcont Hn Hp Hfin He0 He1 Hf Hy Hx Hr Hocc.
  destruct (fitted_transform prop n eps tol zw e bb cc xs Hc Hn Hf) as [Hy' Hs].
  rewrite Hy' in Hy. injection Hy as <-.
  destruct (discrete_fit prop n eps tol zw Hc Hcont Hn Hp) as (e' & bb' & cc' & Hf' & Htl & Hne & Ee & Hhd).
  { destruct Hocc as (y & Hy & E). apply in_map_iff in Hy. destruct Hy as ([y' w] & <- & Hy).
    exists y', w. split; auto. apply feq_not_nan in E. tauto. }
  rewrite Hf in Hf'. injection Hf' as <- <- <-.
  rewrite nth_error_map, Hx. cbn [option_map].
  apply z_unique_occurs in Hocc. rewrite <- Htl in Hocc. destruct Hocc as (v & Hv & Ev).
  apply In_nth_error in Hv. destruct Hv as [r Hv].
  destruct bb as [|b0 zs]; [congruence|]. cbn [tl hd_error] in *.
  destruct zs as [|z0 zs]; [destruct r; discriminate|]. injection Hhd as ->.
  pose proof (z_unique_sorted zw) as Hss. rewrite <- Htl in Hss.
  pose proof (z_unique_finite zw Hfin) as Hzf. rewrite <- Htl in Hzf.
  destruct (minimal_difference_gap z0 zs (StrictSorted_increasing _ Hss) Hzf) as (m & Em & Hm & Hgap).
  rewrite Em in Ee. cbn [fscale] in Ee. subst e.
  exists r, v. split; auto. split; auto.
  unfold tvalue. rewrite (regular_finite _ _ Hr), Hcont.
  assert (Hxf : isfinite x = true) by apply Hr.
  destruct x as [x| | |]; try discriminate.
  assert (Hvf : isfinite v = true) by (rewrite Forall_forall in Hzf; apply Hzf; eapply nth_error_In; eauto).
  destruct v as [v| | |]; try discriminate. apply feq_Fin in Ev.
  set (z := z0 :: zs) in *.
  assert (Lr : (r < length z)%nat) by (apply nth_error_Some; congruence).
  assert (Em1 : (0 <= eps * m)%Q) by (apply Qmult_le_0_compat; lra).
  assert (Em2 : (eps * m < m)%Q).
  { setoid_replace m with (1 * m)%Q at 2 by ring. apply Qmult_lt_compat_r; auto. }
  assert (LL : last_le z (fadd (Fin x) (Fin (eps * m))) (Z.of_nat r)).
  { split; [lia|]. cbn [fadd]. split.
    - intros j a [Hj Ha] Hjr. 
      apply (fle_trans a (Fin v)); [|apply fle_Fin; lra].
      apply (sorted_nth_le z (Z.to_nat j) r); auto. lia.
    - intros j a [Hj Ha] Hjr.
      assert (Fa : isfinite a = true) by (rewrite Forall_forall in Hzf; apply Hzf; eapply nth_error_In; eauto).
      destruct a as [a| | |]; try discriminate. apply fle_Fin_false.
      pose proof (Hgap r (Z.to_nat j) v a ltac:(lia) Hv Ha). lra. }
  unfold disc_value, eq_one.
  destruct (le_search_exclusive z (fadd (Fin x) (Fin (eps * m))) Hs) as (k & -> & Hk).
  rewrite (last_le_unique _ _ _ _ Hk LL).
  rewrite (pyget_in_range z) by lia. rewrite Nat2Z.id, Hv.
  assert (C : check_equal (Fin v) (Fin x) (Fin (eps * m)) = true).
  { cbn [check_equal fsub fneg fadd fabs]. apply fle_Fin.
    destruct (Qle_bool 0 (v + - x)) eqn:E0; lra. }
  rewrite C.
  rewrite (pyget_in_range (arange (length z))) by (rewrite arange_length; lia).
  rewrite Nat2Z.id.
  assert (A : nth_error (arange (length z)) r = Some (Fin (inject_Z (Z.of_nat r)))) by (apply arange_nth; auto).
  rewrite A. reflexivity.
Qed.

(** A value mapped to a bin is within epsilon of that bin's training value. *)
Lemma discrete_found_close prop n eps tol zw e bb cc xs ys i x b :
  check_flags_consistency prop = FlagsOk -> is_continuous_set prop = false -> 2 <= n ->
  fit_column prop n eps tol zw = Fitted e bb cc ->
  transform_column prop (Fitted e bb cc) xs = Some ys ->
  nth_error xs i = Some x -> nth_error ys i = Some (Fin (inject_Z b)) -> b <> -1 ->
  exists v, elem (tl bb) b v /\ check_equal v x e = true /\ occurs v (map fst zw).
Proof.
  intros Hc Hcont Hn Hf Hy Hx Hb Hb1.
  destruct (fitted_transform prop n eps tol zw e bb cc xs Hc Hn Hf) as [Hy' Hs].
  rewrite Hy' in Hy. injection Hy as <-.
  rewrite nth_error_map, Hx in Hb. cbn [option_map] in Hb. injection Hb as Hb.
  pose proof (fit_column_shape prop n eps tol zw Hn) as S. rewrite Hf in S.
  destruct S as (_ & _ & _ & Hne & Hd).
  assert (Hnt : tl bb = z_unique zw /\ tl bb <> []).
  { apply Hd. rewrite (consistent_kind _ Hc) in Hcont. destruct (_ || _); [reflexivity|discriminate]. }
  destruct Hnt as [Htl Hnt].
  unfold tvalue in Hb. destruct (is_finite_prop prop x) eqn:E.
  2:{ injection Hb as Hb. congruence. }
  rewrite Hcont in Hb. pose proof (is_finite_prop_finite _ _ E) as Hfx.
  destruct (disc_value_spec (tl bb) e x Hs Hnt) as [_ [H|(k & zi & _ & Hk & Hz & C & H)]];
    [apply fle_refl; destruct x; discriminate| |]; rewrite H in Hb.
  - injection Hb as Hb. congruence.
  - injection Hb as <-. exists zi. split; auto. split; auto.
    rewrite Htl in Hz. apply z_unique_occurs. exists zi. destruct Hz as [_ Hz].
    split; [eapply nth_error_In; eauto|]. apply feq_refl.
    eapply StrictSorted_no_nan; [apply z_unique_sorted|eapply nth_error_In; eauto].
Qed.
