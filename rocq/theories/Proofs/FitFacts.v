(** Properties of the fitted binning of a column. *)
From Coq Require Import ZArith NArith QArith Qround Qfield List Bool Lia Lqa ZifyBool.
From Verif.Model Require Import Num BinarySearch Flags Ecdf.
From Verif.Spec Require Import SearchSpec BinningSpec.
From Verif.Proofs Require Import NumFacts FnumOrder BinarySearchFacts EcdfFacts ReduceFacts.
Import ListNotations.
Local Open Scope Q_scope.
Ltac Zify.zify_post_hook ::= Z.div_mod_to_equations.

(** ** C06, C07 for the reduction *)
Lemma distribution_facts zs cs : distribution zs cs ->
  length zs = length cs /\ (0 < length cs)%nat /\ increasingQ cs /\ 0 < nth 0 cs 0 /\
  nth (length cs - 1) cs 0 == 1.
Proof.
  intros (H1 & _ & _ & H2 & H3 & (c & H4 & H5)).
  assert (L : (0 < length cs)%nat).
  { assert (length cs - 1 < length cs)%nat by (apply nth_error_Some; congruence). lia. }
  repeat split; auto.
  - apply H3. apply nth_error_nth'; auto.
  - rewrite (nth_error_nth cs (length cs - 1) 0 H4). exact H5.
Qed.

Lemma increasing_map_nb bins_x idxs :
  increasing bins_x -> strict_nat idxs -> (forall x, In x idxs -> (x < length bins_x)%nat) ->
  increasing (map (fun i => nth i bins_x NaN) idxs).
Proof.
  intros Hi Hs Hr i j a b Hij Ha Hb. rewrite nth_error_map in Ha, Hb.
  destruct (nth_error idxs i) as [x|] eqn:Ei; [|discriminate].
  destruct (nth_error idxs j) as [y|] eqn:Ej; [|discriminate].
  cbn in Ha, Hb. injection Ha as <-. injection Hb as <-.
  apply (Hi x y); [eapply Hs; eauto| |]; apply nth_error_nth'; apply Hr; eapply nth_error_In; eauto.
Qed.

Lemma increasingQ_eq l l' : Forall2 Qeq l l' -> increasingQ l' -> increasingQ l.
Proof.
  intros HF Hi i j a b Hij Ha Hb.
  pose proof (Forall2_len _ _ _ HF) as L.
  assert (i < length l)%nat by (apply nth_error_Some; congruence).
  assert (j < length l)%nat by (apply nth_error_Some; congruence).
  destruct (nth_error l' i) as [a'|] eqn:Ea; [|apply nth_error_None in Ea; lia].
  destruct (nth_error l' j) as [b'|] eqn:Eb; [|apply nth_error_None in Eb; lia].
  rewrite (Forall2_nth _ _ _ _ _ _ HF Ha Ea), (Forall2_nth _ _ _ _ _ _ HF Hb Eb). apply (Hi i j); auto.
Qed.

Lemma reduce_main bins_x cdf_x n eps tol :
  distribution bins_x cdf_x -> (2 <= n)%Z -> 0 <= tol < 1 ->
  0 <= eps -> eps < (1 - tol) / inject_Z n ->
  exists bb cc, reduce_cdf bins_x cdf_x n eps tol = ReduceOk bb cc /\
    valid_binning bins_x cdf_x n ((1 - tol) / inject_Z n - eps) bb cc /\
    (forall c, eps * inject_Z n < (1 - tol) / inject_Z n ->
       nth_error cc (length cc - 1) = Some c -> 1 - eps * inject_Z n <= c) /\
    (eps == 0 -> nth_error bb (length bb - 1) = nth_error bins_x (length bins_x - 1)).
Proof.
  intros Hd Hn Htol He0 He1.
  pose proof (distribution_facts _ _ Hd) as (Hl & Hne & Hinc & Hf & Hlast).
  assert (HnQ : 0 < inject_Z n) by (change 0 with (inject_Z 0); rewrite <- Zlt_Qlt; lia).
  set (share := 1 / inject_Z n).
  assert (Hshare : share * inject_Z n == 1) by (unfold share; field; lra).
  assert (Hpos : 0 < share).
  { unfold share, Qdiv. rewrite Qmult_1_l. apply Qinv_lt_0_compat; auto. }
  assert (Es : (1 - tol) / inject_Z n == (1 - tol) * share) by (unfold share; field; lra).
  pose proof (reduce_outcome bins_x cdf_x n share tol eps Hl Hne Hinc Hf Hlast Hn Hshare Hpos Htol) as O.
  destruct O as (pre & k & cc & Hr & Hcc & Hhd & (G1 & G2 & G3) & Hlim & Hch & Hfin); [rewrite <- Es; split; auto|].
  set (nb := fun i => nth i bins_x NaN) in *.
  exists (nb 0%nat :: map nb (pre ++ [k])), cc.
  assert (Hr' : reduce_cdf bins_x cdf_x n eps tol = ReduceOk (nb 0%nat :: map nb (pre ++ [k])) cc).
  { unfold reduce_cdf. destruct (n <? 2)%Z eqn:E; [lia|].
    rewrite (pyget_in_range bins_x) by lia. change (Z.to_nat 0) with 0%nat.
    rewrite (nth_error_nth' bins_x NaN) by lia. exact Hr. }
  assert (Lc : length cc = S (length pre + 1)).
  { rewrite (Forall2_len _ _ _ Hcc). cbn. rewrite map_length, app_length. cbn. lia. }
  assert (Lb : length (nb 0%nat :: map nb (pre ++ [k])) = S (length pre + 1)).
  { cbn. rewrite map_length, app_length. cbn. lia. }
  assert (Hk : (k < length cdf_x)%nat) by (apply G2; apply in_or_app; right; left; auto).
  assert (Gp : 0 < (1 - tol) * share - eps) by lra.
  assert (Hlastc : forall c, nth_error cc (length cc - 1) = Some c -> c == nth k cdf_x 0).
  { intros c Hc. apply (Forall2_nth _ _ _ (length cc - 1)%nat c _ Hcc Hc).
    rewrite (Forall2_len _ _ _ Hcc). apply (last_cvals bins_x cdf_x Hl Hne). }
  assert (Fin7 : eps * inject_Z n < (1 - tol) / inject_Z n -> 1 - eps * inject_Z n <= nth k cdf_x 0).
  { intro Hs. apply Hfin; auto. unfold small_eps. lra. }
  split; [exact Hr'|]. split; [|split].
  - split; [congruence|]. split; [rewrite Lb; lia|].
    split; [change (Some (nth 0 bins_x NaN) = nth_error bins_x 0); symmetry; apply nth_error_nth'; lia|].
    split; [destruct cc; cbn in *; congruence|].
    destruct Hd as (_ & _ & Hinb & _).
    split; [cbn [tl]; apply increasing_map_nb; auto; intros x Hx; rewrite Hl; apply G2; auto|].
    split; [eapply increasingQ_eq; [exact Hcc|]; eapply gap_increasing; eauto|].
    split.
    + intros i b c Hi Hb Hc. destruct i as [|i]; [lia|]. cbn [nth_error] in Hb.
      rewrite nth_error_map in Hb. destruct (nth_error (pre ++ [k]) i) as [x|] eqn:Ex; [|discriminate].
      cbn in Hb. injection Hb as <-.
      assert (Hx : (x < length cdf_x)%nat) by (apply G2; eapply nth_error_In; eauto).
      exists x, (nth x cdf_x 0). split; [apply nth_error_nth'; lia|]. split; [apply nth_error_nth'; auto|].
      apply (Forall2_nth _ _ _ (S i) c _ Hcc Hc). cbn [cvals nth_error]. rewrite nth_error_map, Ex. reflexivity.
    + intros i c c' Hc Hc'.
      assert (Li : (S i < length cc)%nat) by (apply nth_error_Some; congruence).
      pose proof (Forall2_len _ _ _ Hcc) as L2.
      destruct (nth_error (cvals cdf_x (pre ++ [k])) i) as [a|] eqn:Ea; [|apply nth_error_None in Ea; lia].
      destruct (nth_error (cvals cdf_x (pre ++ [k])) (S i)) as [b|] eqn:Eb; [|apply nth_error_None in Eb; lia].
      rewrite (Forall2_nth _ _ _ _ _ _ Hcc Hc Ea), (Forall2_nth _ _ _ _ _ _ Hcc Hc' Eb), Es.
      eapply G3; eauto.
  - intros c Hs Hc. rewrite (Hlastc c Hc). auto.
  - intro E0. assert (Hs : eps * inject_Z n < (1 - tol) / inject_Z n).
    { rewrite Es, E0. lra. }
    specialize (Fin7 Hs). rewrite E0 in Fin7.
    assert (Ek : k = (length cdf_x - 1)%nat).
    { destruct (Nat.eq_dec k (length cdf_x - 1)) as [|Hk2]; auto. exfalso.
      assert (L : nth k cdf_x 0 < nth (length cdf_x - 1) cdf_x 0).
      { apply (Hinc k (length cdf_x - 1)%nat); [lia|apply nth_error_nth'; lia|apply nth_error_nth'; lia]. }
      lra. }
    rewrite Lb. replace (S (length pre + 1) - 1)%nat with (S (length pre)) by lia. cbn [nth_error].
    rewrite map_app, nth_error_app2 by (rewrite map_length; lia). rewrite map_length, Nat.sub_diag.
    cbn. unfold nb. rewrite Ek, Hl. symmetry. apply nth_error_nth'. lia.
Qed.

Lemma reduce_rejects bins_x cdf_x n eps tol :
  (n < 2)%Z -> reduce_cdf bins_x cdf_x n eps tol = RaiseNBins.
Proof. intro H. unfold reduce_cdf. destruct (n <? 2)%Z eqn:E; [auto|lia]. Qed.

(** ** Arbitrary weights: boundaries are sorted *)
Lemma ge_loop_range z x : forall fuel il ir,
  (-1 <= il)%Z -> (ir <= Z.of_nat (length z))%Z -> (ir - il <= Z.of_nat fuel \/ ir - 1 <= il)%Z ->
  (il < ir)%Z ->
  exists i, ge_loop fuel z x il ir = Found i /\ (il < i <= ir)%Z.
Proof.
  induction fuel as [|fuel IH]; intros il ir H1 H2 Hf Hlt; cbn [ge_loop].
  - destruct (il <? ir - 1)%Z eqn:E; [lia|]. exists ir. split; auto. lia.
  - destruct (il <? ir - 1)%Z eqn:E; [|exists ir; split; auto; lia].
    set (i := ((il + ir) / 2)%Z). assert (Hi : (il < i < ir)%Z) by (unfold i; lia).
    destruct (pyget_some z i) as [v [-> _]]; [lia|].
    destruct (fge v x).
    + destruct (IH il i) as (j & Hj & Hr); try lia. exists j. split; auto. lia.
    + destruct (IH i ir) as (j & Hj & Hr); try lia. exists j. split; auto. lia.
Qed.

Lemma ge_lim_range z x l r :
  (0 <= l < r)%Z -> (r <= Z.of_nat (length z))%Z ->
  exists i, ge_lim z x true l r = Found i /\ (l <= i < r)%Z.
Proof.
  intros H1 H2. unfold ge_lim.
  destruct (ge_loop_range z x (S (length z)) (l - 1) (r - 1)) as (i & Hi & Hr); try lia.
  exists i. split; auto. lia.
Qed.

Lemma sorted_snoc l b : sorted_array l -> b <> NaN -> (forall x, In x l -> fle x b = true) ->
  sorted_array (l ++ [b]).
Proof.
  intros [Hn Hs] Hb Hx. split; [apply Forall_app; auto|].
  intros i j u v Hij Hu Hv. apply nth_error_snoc in Hu. apply nth_error_snoc in Hv.
  destruct Hu as [[Hu Lu]|[-> ->]], Hv as [[Hv Lv]|[-> ->]]; try lia.
  - apply (Hs i j); auto.
  - apply Hx. eapply nth_error_In; eauto.
Qed.

Lemma sorted_init l b : sorted_array (l ++ [b]) -> sorted_array l.
Proof.
  intros [Hn Hs]. apply Forall_app in Hn. split; [tauto|].
  intros i j u v Hij Hu Hv. apply (Hs i j); auto; rewrite nth_error_app1; auto; apply nth_error_Some; congruence.
Qed.

Lemma sorted_nth_le z i j a b : sorted_array z -> (i <= j)%nat ->
  nth_error z i = Some a -> nth_error z j = Some b -> fle a b = true.
Proof.
  intros [Hn Hs] Hij Ha Hb. destruct (Nat.eq_dec i j) as [->|].
  - replace b with a by congruence. apply fle_refl. rewrite Forall_forall in Hn. apply Hn. eapply nth_error_In; eauto.
  - apply (Hs i j); auto. lia.
Qed.

Section General.
Variables (bins_x : list fnum) (cdf_x : list Q) (share tol eps : Q).
Hypothesis Hsort : sorted_array bins_x.
Hypothesis Hlen : (length cdf_x <= length bins_x)%nat.
Hypothesis Hne : (0 < length cdf_x)%nat.

Lemma reduce_loop_sorted : forall todo index prev accb b accc,
  (0 <= index < Z.of_nat (length cdf_x))%Z ->
  sorted_array (accb ++ [b]) ->
  (forall x v, In x (accb ++ [b]) -> nth_error bins_x (Z.to_nat index) = Some v -> fle x v = true) ->
  length (accb ++ [b]) = length accc ->
  exists bb cc, reduce_loop todo bins_x cdf_x share eps tol index prev (accb ++ [b]) accc = ReduceOk bb cc /\
    sorted_array bb /\ length bb = length cc /\ (length (accb ++ [b]) <= length bb)%nat /\
    incl bb (bins_x ++ accb ++ [b]).
Proof.
  induction todo as [|todo IH]; intros index prev accb b accc Hi Hs Hle Hl; cbn [reduce_loop].
  - exists (accb ++ [b]), accc. repeat split; auto; try apply Hs. intros x Hx. apply in_or_app; auto.
  - match goal with |- context [if ?c then _ else _] => set (cond := c) end.
    match goal with |- context [ge_lim (map Fin cdf_x) ?x true index ?r] => set (sx := x) end.
    match goal with |- context [if ?c then match ge_lim _ _ _ _ _ with _ => _ end else _] => destruct c end.
    + destruct (ge_lim_range (map Fin cdf_x) sx index (Z.of_nat (length cdf_x))) as (i' & -> & Hi');
        [lia|rewrite map_length; lia|].
      destruct (pyget_some cdf_x i') as [c [-> _]]; [lia|].
      destruct (pyget_some bins_x i') as [v [-> Hv]]; [lia|].
      assert (Hinv : In v bins_x) by (eapply nth_error_In; eauto).
      assert (Hvn : v <> NaN) by (destruct Hsort as [Hn _]; rewrite Forall_forall in Hn; auto).
      assert (Hxv : forall x, In x (accb ++ [b]) -> fle x v = true).
      { intros x Hx. destruct (pyget_some bins_x index) as [u [_ Hu]]; [lia|].
        apply (fle_trans x u v); [eapply Hle; eauto|].
        apply (sorted_nth_le bins_x (Z.to_nat index) (Z.to_nat i')); auto. lia. }
      destruct (IH i' c (accb ++ [b]) v (accc ++ [c])) as (bb & cc & Hr & H1 & H2 & H3 & H4).
      * lia.
      * apply sorted_snoc; auto.
      * intros x w Hx Hw. replace w with v by congruence. apply in_app_or in Hx.
        destruct Hx as [Hx|[<-|[]]]; auto. apply fle_refl; auto.
      * rewrite !app_length in *. cbn in *. lia.
      * exists bb, cc. repeat split; auto; try apply H1.
        { rewrite !app_length in *. cbn in *. lia. }
        { intros x Hx. apply H4 in Hx. rewrite !in_app_iff in *. cbn in *. intuition (subst; auto). }
    + destruct (pyget_some bins_x (Z.of_nat (length cdf_x) - 1)) as [v [-> Hv]]; [lia|].
      exists (removelast (accb ++ [b]) ++ [v]), (removelast accc ++ [1]).
      rewrite removelast_snoc. split; [reflexivity|].
      assert (Hinv : In v bins_x) by (eapply nth_error_In; eauto).
      assert (Hvn : v <> NaN) by (destruct Hsort as [Hn _]; rewrite Forall_forall in Hn; auto).
      split; [|split; [|split]].
      * apply sorted_snoc; auto; [eapply sorted_init; eauto|]. intros x Hx.
        destruct (pyget_some bins_x index) as [u [_ Hu]]; [lia|].
        apply (fle_trans x u v); [apply Hle; auto; apply in_or_app; auto|].
        apply (sorted_nth_le bins_x (Z.to_nat index) (Z.to_nat (Z.of_nat (length cdf_x) - 1))); auto. lia.
      * destruct accc as [|c0 accc'] using rev_ind; [rewrite app_length in Hl; cbn in Hl; lia|].
        rewrite removelast_snoc. rewrite !app_length in *. cbn in *. lia.
      * rewrite !app_length. cbn. lia.
      * intros x Hx. rewrite !in_app_iff in *. cbn in *. intuition (subst; auto).
Qed.
End General.

(** ** The fitted column *)
Lemma cdf_values_length zw : (length (cdf_values zw) <= length (z_unique zw))%nat.
Proof.
  unfold cdf_values, cumsum, group_weights. rewrite map_length, cumsum_from_length.
  rewrite <- (map_length (group_weight zw) (z_unique zw)).
  induction (map (group_weight zw) (z_unique zw)); cbn; auto.
  destruct (negb _); cbn; lia.
Qed.

Lemma sorted_tl a l : sorted_array (a :: l) -> sorted_array l.
Proof.
  intros [Hn Hs]. inversion Hn; subst. split; auto.
  intros i j x y Hij Hx Hy. apply (Hs (S i) (S j)); auto. lia.
Qed.

Lemma sorted_cons_hd a l : sorted_array (a :: l) -> sorted_array (a :: a :: l).
Proof.
  intros [Hn Hs]. inversion Hn as [|? ? Ha Hl]; subst. split; [constructor; auto|].
  intros [|i] [|j] x y Hij Hx Hy; try lia.
  - cbn in Hx. injection Hx as <-. cbn [nth_error] in Hy. destruct j as [|j].
    + cbn in Hy. injection Hy as <-. apply fle_refl; auto.
    + apply (Hs 0%nat (S j)); auto. lia.
  - apply (Hs i j); auto. lia.
Qed.

Lemma reduce_sorted bins_x cdf_x n eps tol :
  sorted_array bins_x -> (0 < length cdf_x <= length bins_x)%nat -> (2 <= n)%Z ->
  exists bb cc, reduce_cdf bins_x cdf_x n eps tol = ReduceOk bb cc /\
    sorted_array bb /\ length bb = length cc /\ (1 <= length bb)%nat /\ incl bb bins_x.
Proof.
  intros Hs Hl Hn. unfold reduce_cdf. destruct (n <? 2)%Z eqn:E; [lia|].
  destruct (pyget_some bins_x 0) as [b0 [-> Hb]]; [lia|].
  change (Z.to_nat 0) with 0%nat in Hb.
  assert (Hin : In b0 bins_x) by (eapply nth_error_In; eauto).
  assert (Hb0 : b0 <> NaN) by (destruct Hs as [Hn' _]; rewrite Forall_forall in Hn'; auto).
  destruct (reduce_loop_sorted bins_x cdf_x (1 / inject_Z n) tol eps Hs (proj2 Hl) (proj1 Hl)
              (Z.to_nat n) 0 0 [] b0 [0]) as (bb & cc & Hr & H1 & H2 & H3 & H4).
  - lia.
  - cbn [app]. split; [repeat constructor; auto|]. intros i j x y Hij Hx Hy. destruct j; [lia|]. destruct j; discriminate.
  - cbn [app]. intros x v [<-|[]] Hv. change (Z.to_nat 0) with 0%nat in Hv. replace v with b0 by congruence. apply fle_refl; auto.
  - reflexivity.
  - exists bb, cc. cbn [app] in *. repeat split; auto; try apply H1.
    intros x Hx. apply H4 in Hx. apply in_app_or in Hx. destruct Hx as [Hx|[<-|[]]]; auto.
Qed.

(** Shape of a fitted binning, whatever the weights. *)
Lemma fit_column_shape prop n eps tol zw :
  (2 <= n)%Z ->
  match fit_column prop n eps tol zw with
  | FitNone e => e = eps
  | Fitted e bb cc =>
      e = fscale eps (minimal_difference bb) /\ sorted_array bb /\ length bb = length cc /\ bb <> [] /\
      (is_ordered_set prop || is_unordered_set prop = true -> tl bb = z_unique zw /\ tl bb <> [])
  | RaiseBroadcast => is_ordered_set prop || is_unordered_set prop = true
  | RaiseTooFewBins => False
  | FitIndexError => False
  end.
Proof.
  intro Hn. unfold fit_column.
  pose proof (z_unique_sorted zw) as Hz. apply StrictSorted_sorted_array in Hz.
  pose proof (cdf_values_length zw) as Hl.
  destruct (z_unique zw) as [|b0 bs] eqn:Ez; [reflexivity|].
  destruct (cdf_values zw) as [|c0 cs] eqn:Ec; [reflexivity|].
  destruct (is_ordered_set prop || is_unordered_set prop) eqn:Ed.
  - destruct (Nat.eqb _ _) eqn:El; [|reflexivity].
    apply Nat.eqb_eq in El. split; [reflexivity|]. split; [apply sorted_cons_hd; exact Hz|].
    split; [exact El|]. split; [discriminate|]. intros _. split; [reflexivity|discriminate].
  - destruct (reduce_sorted (b0 :: bs) (c0 :: cs) n eps tol Hz) as (bb & cc & -> & H1 & H2 & H3 & H4); auto.
    + cbn in *. lia.
    + split; [reflexivity|]. split; [exact H1|]. split; [exact H2|].
      split; [intros ->; cbn in H3; lia|discriminate].
Qed.

(** A continuous column always has at least one bin. *)
Lemma reduce_two bins_x cdf_x n eps tol bb cc :
  sorted_array bins_x -> (0 < length cdf_x <= length bins_x)%nat -> (2 <= n)%Z -> 0 <= tol ->
  reduce_cdf bins_x cdf_x n eps tol = ReduceOk bb cc -> (2 <= length bb)%nat.
Proof.
  intros Hs Hl Hn Ht. unfold reduce_cdf. destruct (n <? 2)%Z eqn:E; [lia|].
  destruct (pyget_some bins_x 0) as [b0 [-> Hb]]; [lia|].
  change (Z.to_nat 0) with 0%nat in Hb.
  assert (Hin : In b0 bins_x) by (eapply nth_error_In; eauto).
  assert (Hb0 : b0 <> NaN) by (destruct Hs as [Hn' _]; rewrite Forall_forall in Hn'; auto).
  assert (HnQ : 2 <= inject_Z n) by (change 2 with (inject_Z 2); rewrite <- Zle_Qle; lia).
  set (share := 1 / inject_Z n).
  assert (Hpos : 0 < share).
  { unfold share, Qdiv. rewrite Qmult_1_l. apply Qinv_lt_0_compat; lra. }
  assert (Hsh : share <= 1).
  { unfold share. apply Qle_shift_div_r; lra. }
  destruct (Z.to_nat n) as [|todo] eqn:En; [lia|]. cbn [reduce_loop].
  assert (T0 : 0 <= tol * share) by (apply Qmult_le_0_compat; lra).
  destruct (Qmod_decomp 0 share Hpos) as (q & Er & H1 & H2).
  match goal with |- context [if Qle_bool ?a (1 + tol * share) then _ else _] =>
    assert (C : Qle_bool a (1 + tol * share) = true) end.
  { apply Qle_bool_iff. destruct (Qle_bool (Qmod 0 share) (tol * share)); rewrite ?Er; lra. }
  rewrite C.
  match goal with |- context [ge_lim (map Fin cdf_x) ?x true 0 ?r] =>
    destruct (ge_lim_range (map Fin cdf_x) x 0 r) as (i' & -> & Hi') end; [lia|rewrite map_length; lia|].
  destruct (pyget_some cdf_x i') as [c [-> _]]; [lia|].
  destruct (pyget_some bins_x i') as [v [-> Hv]]; [lia|].
  intro Hr.
  assert (Hinv : In v bins_x) by (eapply nth_error_In; eauto).
  assert (Hvn : v <> NaN) by (destruct Hs as [Hn' _]; rewrite Forall_forall in Hn'; auto).
  assert (Hbv : fle b0 v = true) by (apply (sorted_nth_le bins_x 0 (Z.to_nat i')); auto; lia).
  destruct (reduce_loop_sorted bins_x cdf_x share tol eps Hs (proj2 Hl) (proj1 Hl)
              todo i' c [b0] v ([0] ++ [c])) as (bb' & cc' & Hr' & H3 & H4 & H5 & H6).
  - lia.
  - apply sorted_snoc; auto.
    + split; [repeat constructor; auto|]. intros i j x y Hij Hx Hy. destruct j; [lia|]. destruct j; discriminate.
    + intros x [<-|[]]; auto.
  - cbn [app]. intros x w [<-|[<-|[]]] Hw; replace w with v by congruence; auto. apply fle_refl; auto.
  - reflexivity.
  - rewrite Hr in Hr'. injection Hr' as -> ->. cbn in H5. lia.
Qed.

Lemma fit_two prop n eps tol zw e bb cc :
  (2 <= n)%Z -> 0 <= tol -> fit_column prop n eps tol zw = Fitted e bb cc -> tl bb <> [].
Proof.
  intros Hn Ht Hf. unfold fit_column in Hf.
  pose proof (z_unique_sorted zw) as Hz. apply StrictSorted_sorted_array in Hz.
  pose proof (cdf_values_length zw) as Hl.
  destruct (z_unique zw) as [|b0 bs] eqn:Ez; [discriminate|].
  destruct (cdf_values zw) as [|c0 cs] eqn:Ec; [discriminate|].
  destruct (is_ordered_set prop || is_unordered_set prop).
  - destruct (Nat.eqb _ _); [|discriminate]. injection Hf as _ <- _. discriminate.
  - destruct (reduce_cdf (b0 :: bs) (c0 :: cs) n eps tol) as [bb' cc'| |] eqn:Er; try discriminate.
    injection Hf as _ <- _.
    apply reduce_two in Er; auto; [|cbn in *; lia]. destruct bb' as [|? [|? ?]]; cbn in *; try lia. discriminate.
Qed.

(** ** The stored epsilon *)
Lemma fmin_in l : forall d, In (fold_left fmin l d) (d :: l).
Proof.
  induction l as [|a l IH]; intro d; [left; reflexivity|]. cbn [fold_left].
  destruct (IH (fmin d a)) as [H|H]; [|right; right; auto].
  rewrite <- H. unfold fmin. destruct (fle d a); [left|right; left]; auto.
Qed.

Lemma fmin_le l : forall d x, (forall y, In y (d :: l) -> y <> NaN) -> In x (d :: l) ->
  fle (fold_left fmin l d) x = true.
Proof.
  induction l as [|a l IH]; intros d x Hn Hx.
  - destruct Hx as [->|[]]. apply fle_refl. apply Hn; left; auto.
  - cbn [fold_left].
    assert (Hd : d <> NaN) by (apply Hn; left; auto).
    assert (Ha : a <> NaN) by (apply Hn; right; left; auto).
    assert (Hm : fmin d a <> NaN) by (unfold fmin; destruct (fle d a); auto).
    assert (M : fle (fmin d a) d = true /\ fle (fmin d a) a = true).
    { unfold fmin. destruct (fle d a) eqn:E; split; auto using fle_refl. apply fle_total; auto. }
    assert (Hn' : forall y, In y (fmin d a :: l) -> y <> NaN).
    { intros y [<-|Hy]; auto. apply Hn. right; right; auto. }
    destruct Hx as [->|[->|Hx]].
    + eapply fle_trans; [apply IH; [auto|left; reflexivity]|tauto].
    + eapply fle_trans; [apply IH; [auto|left; reflexivity]|tauto].
    + apply IH; auto. right; auto.
Qed.

Lemma minimal_difference_cases l :
  (minimal_difference l = Fin 1 /\ (forall d, In d (differences l) -> flt (Fin 0) d = false)) \/
  (In (minimal_difference l) (differences l) /\ flt (Fin 0) (minimal_difference l) = true /\
   forall d, In d (differences l) -> flt (Fin 0) d = true -> fle (minimal_difference l) d = true).
Proof.
  unfold minimal_difference.
  destruct (filter (fun d => flt (Fin 0) d) (differences l)) as [|d r] eqn:E.
  - left. split; auto. intros d Hd. destruct (flt (Fin 0) d) eqn:F; auto.
    assert (K : In d (filter (fun d => flt (Fin 0) d) (differences l))) by (apply filter_In; auto).
    rewrite E in K. destruct K.
  - right.
    assert (A : forall y, In y (d :: r) -> In y (differences l) /\ flt (Fin 0) y = true).
    { intros y Hy. rewrite <- E in Hy. apply filter_In in Hy. auto. }
    pose proof (fmin_in r d) as I. destruct (A _ I) as [I1 I2]. repeat split; auto.
    intros x Hx Fx. apply fmin_le.
    + intros y Hy. destruct (A y Hy) as [_ F]. apply flt_not_nan in F. tauto.
    + rewrite <- E. apply filter_In; auto.
Qed.

Lemma minimal_difference_pos l : flt (Fin 0) (minimal_difference l) = true.
Proof.
  destruct (minimal_difference_cases l) as [[-> _]|(_ & H & _)]; auto.
Qed.

Lemma fscale_not_nan e m : m <> NaN -> fscale e m <> NaN.
Proof. destruct m; cbn; congruence. Qed.

Lemma fit_eps_not_nan prop n eps tol zw e bb cc :
  (2 <= n)%Z -> fit_column prop n eps tol zw = Fitted e bb cc -> e <> NaN.
Proof.
  intros Hn Hf. pose proof (fit_column_shape prop n eps tol zw Hn) as S. rewrite Hf in S.
  destruct S as (-> & _). apply fscale_not_nan.
  pose proof (minimal_difference_pos bb) as H. apply flt_not_nan in H. tauto.
Qed.

Lemma differences_nth l : forall i a b, nth_error l i = Some a -> nth_error l (S i) = Some b ->
  In (fsub b a) (differences l).
Proof.
  induction l as [|x [|y r] IH]; intros [|i] a b Ha Hb; try discriminate; try (destruct i; discriminate).
  - cbn in Ha, Hb. injection Ha as <-. injection Hb as <-. left. reflexivity.
  - change (differences (x :: y :: r)) with (fsub y x :: differences (y :: r)). right.
    apply (IH i); auto.
Qed.

Lemma differences_finite l : Forall (fun v => isfinite v = true) l ->
  Forall (fun v => isfinite v = true) (differences l).
Proof.
  induction l as [|x [|y r] IH]; intro H; try constructor.
  - inversion H as [|? ? Hx H']; subst. inversion H' as [|? ? Hy _]; subst.
    destruct x, y; try discriminate. reflexivity.
  - inversion H as [|? ? Hx H']; subst. apply (IH H').
Qed.

(** For a strictly increasing list of finite values, preceded by its first
    value, the minimal difference is finite, positive, and a lower bound of the
    distance of any two values. *)
Lemma minimal_difference_gap z0 zs :
  increasing (z0 :: zs) -> Forall (fun v => isfinite v = true) (z0 :: zs) ->
  exists m, minimal_difference (z0 :: z0 :: zs) = Fin m /\ 0 < m /\
    forall i j a b, (i < j)%nat -> nth_error (z0 :: zs) i = Some (Fin a) ->
      nth_error (z0 :: zs) j = Some (Fin b) -> m <= b - a.
Proof.
  intros Hi Hf. set (l := z0 :: zs) in *.
  assert (Hf' : Forall (fun v => isfinite v = true) (z0 :: l)).
  { constructor; auto. inversion Hf; auto. }
  pose proof (minimal_difference_pos (z0 :: l)) as Hp.
  pose proof (differences_finite _ Hf') as Hdf. rewrite Forall_forall in Hdf.
  destruct (minimal_difference_cases (z0 :: l)) as [[E N]|(I & _ & B)].
  - exists 1. split; [exact E|]. split; [lra|]. intros i j a b Hij Ha Hb. exfalso.
    assert (exists c, nth_error l (S i) = Some c) as (c & Hc).
    { destruct (nth_error l (S i)) eqn:Ec; eauto. apply nth_error_None in Ec.
      assert (j < length l)%nat by (apply nth_error_Some; congruence). lia. }
    pose proof (Hi i (S i) _ _ (Nat.lt_succ_diag_r i) Ha Hc) as L.
    rewrite Forall_forall in Hf. pose proof (Hf c (nth_error_In _ _ Hc)) as Fc.
    destruct c as [c| | |]; try discriminate. apply flt_Fin in L.
    pose proof (N _ (differences_nth (z0 :: l) (S i) (Fin a) (Fin c) Ha Hc)) as K.
    cbn [fsub fneg fadd] in K. assert (K2 : flt (Fin 0) (Fin (c + - a)) = true) by (apply flt_Fin; lra). congruence.
  - specialize (Hdf _ I). destruct (minimal_difference (z0 :: l)) as [m| | |] eqn:Em; try discriminate.
    exists m. apply flt_Fin in Hp. split; auto. split; auto.
    assert (Hf2 := Hf). rewrite Forall_forall in Hf2.
    assert (Step : forall i a b, nth_error l i = Some (Fin a) -> nth_error l (S i) = Some (Fin b) -> m <= b - a).
    { intros i a b Ha Hb.
      pose proof (Hi i (S i) _ _ (Nat.lt_succ_diag_r i) Ha Hb) as L. apply flt_Fin in L.
      specialize (B _ (differences_nth (z0 :: l) (S i) (Fin a) (Fin b) Ha Hb)).
      cbn [fsub fneg fadd] in B. rewrite flt_Fin in B. specialize (B ltac:(lra)).
      apply fle_Fin in B. lra. }
    intros i j a b Hij Ha Hb.
    assert (exists c, nth_error l (S i) = Some c) as (c & Hc).
    { destruct (nth_error l (S i)) eqn:Ec; eauto. apply nth_error_None in Ec.
      assert (j < length l)%nat by (apply nth_error_Some; congruence). lia. }
    pose proof (Hf2 c (nth_error_In _ _ Hc)) as Fc. destruct c as [c| | |]; try discriminate.
    pose proof (Step i a c Ha Hc) as S1.
    destruct (Nat.eq_dec j (S i)) as [->|Hne].
    + replace b with c by congruence. lra.
    + assert (L : flt (Fin c) (Fin b) = true) by (apply (Hi (S i) j); auto; lia). apply flt_Fin in L. lra.
Qed.
