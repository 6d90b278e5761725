(** Bins of a continuous column grow with the value. *)
From Coq Require Import ZArith NArith QArith List Bool Lia Lqa.
From Verif.Proofs Require Import NumFacts FnumOrder BinarySearchFacts EcdfFacts ReduceFacts FitFacts FlagFacts TransformFacts FitUser UnitFacts.
From Verif.Model Require Import Num BinarySearch Flags Ecdf BinTransform.
From Verif.Spec Require Import SearchSpec BinningSpec.
Import ListNotations.
Local Open Scope Q_scope.

Definition number_bin (idx : Q -> Z) (v : fnum) : fnum := match v with Fin q => Fin (inject_Z (idx q)) | _ => MISSING end.

Lemma last_index z e q : sorted_array (map Fin z) -> 0 <= e ->
  (forall i a b, nth_error z i = Some a -> nth_error z (S i) = Some b -> a + e < b) ->
  nth_error z (List.length z - 1) = Some q ->
  cont_index (map Fin z) (Fin e) (Fin q) = (Z.of_nat (List.length z) - 1)%Z.
Proof.
  intros Hs He Hg Hq. destruct (cont_index_spec (map Fin z) (Fin e) (Fin q) Hs) as (k & (K1 & K2 & K3) & _ & E).
  rewrite E, map_length in *. assert (0 < List.length z)%nat by (destruct z; [discriminate|cbn; lia]).
  destruct (Z_le_gt_dec (Z.of_nat (List.length z) - 1) k) as [|L]; [lia|exfalso].
  assert (G : forall d i a, nth_error z i = Some a -> (i + S d = List.length z - 1)%nat -> a + e < q).
  { induction d as [|d IH]; intros i a Ha Hd.
    - apply (Hg i); auto. replace (S i) with (List.length z - 1)%nat by lia. exact Hq.
    - destruct (nth_error z (S i)) as [b|] eqn:Eb; [|apply nth_error_None in Eb; lia].
      specialize (Hg i a b Ha Eb). specialize (IH (S i) b Eb ltac:(lia)). lra. }
  destruct (nth_error z (Z.to_nat k)) as [a|] eqn:Ea; [|apply nth_error_None in Ea; lia].
  specialize (G (List.length z - 1 - Z.to_nat k - 1)%nat (Z.to_nat k) a Ea ltac:(lia)).
  specialize (K3 k (Fin a)). assert (El : elem (map Fin z) k (Fin a)) by (split; [lia|rewrite nth_error_map, Ea; reflexivity]).
  specialize (K3 El ltac:(lia) ltac:(lia)). cbn in K3. apply Qle_bool_iff in K3. lra.
Qed.

Lemma monotone_column p n eps tol zw : check_flags_consistency p = FlagsOk -> is_continuous_set p = true -> has_magic_missing_set p = false ->
  positive_weights zw -> finite_or_nan zw -> 0 <= tol < 1 -> 0 <= eps -> eps < (1 - tol) / inject_Z n -> (2 <= n)%Z ->
  (forall xs, transform_column p (fit_column p n eps tol zw) xs = Some (map (fun _ => MISSING) xs)) \/
  exists idx, (forall xs, transform_column p (fit_column p n eps tol zw) xs = Some (map (number_bin idx) xs)) /\
    (forall q q', q <= q' -> (idx q <= idx q')%Z) /\ (forall q, (0 <= idx q)%Z) /\
    exists t w, In (Fin t, w) zw /\ forall q, (idx q <= idx t)%Z.
Proof.
  intros Hc Hk Hm Hp Hf Ht He Hn H2. destruct (no_values zw) as [E|Hx].
  - left. intro xs. unfold fit_column. rewrite E. reflexivity.
  - right. destruct (fit_interp p n eps tol zw Hc Hk Hp Hf Hx H2 Ht He Hn) as (e & bb & cc & Ef & E0 & _ & _ & _ & L2 & _ & Hg & _).
    destruct (fit_continuous p n eps tol zw Hc Hk Hp Hx H2 Ht He Hn) as (e' & bb' & cc' & zs & cs & Ef' & D & V & _).
    assert (bb' = map Fin bb) by congruence. subst bb'. clear Ef' e'.
    destruct (fitted_transform p n eps tol zw _ _ _ [] Hc H2 Ef) as [_ Hs]. destruct bb as [|b0 z]; [cbn in L2; lia|]. cbn [map tl List.length] in *.
    assert (NZ : (0 < List.length z)%nat) by lia.
    exists (fun q => cont_index (map Fin z) (Fin e) (Fin q)). split; [|split; [|split]].
    + intro xs. rewrite Ef. destruct (fitted_transform p n eps tol zw _ _ _ xs Hc H2 Ef) as [-> _]. f_equal. apply map_ext. intro v.
      unfold tvalue. rewrite (plain_finite p _ Hm), Hk. destruct v; reflexivity.
    + intros q q' L. apply cont_index_mono; auto; [discriminate|]. cbn. apply Qle_bool_iff. exact L.
    + intro q. destruct (cont_index_spec (map Fin z) (Fin e) (Fin q) Hs) as (i & (I1 & _) & _ & ->). rewrite map_length. lia.
    + destruct (nth_error z (List.length z - 1)) as [b|] eqn:Eb; [|apply nth_error_None in Eb; lia].
      pose proof (last_index z e b Hs E0) as LI. specialize (LI (fun i a c A C => Hg (S i) a c (fun Z => match Nat.neq_succ_0 i Z with end) A C) Eb).
      assert (I : In (Fin b) zs). { apply (valid_incl _ _ _ _ _ _ V). right. apply in_map. eapply nth_error_In; eauto. }
      destruct D as (_ & _ & Docc & _). assert (O : occurs (Fin b) (map fst zw)).
      { apply Docc. exists (Fin b). split; auto. apply feq_refl. discriminate. }
      destruct O as (y & Hy & E). apply in_map_iff in Hy. destruct Hy as ([y' w] & Q & Hy). cbn in Q. subst y'.
      destruct y as [t| | |]; try discriminate. exists t, w. split; [exact Hy|]. intro q.
      destruct (cont_index_spec (map Fin z) (Fin e) (Fin q) Hs) as (i & (I1 & _) & _ & ->). rewrite map_length.
      assert (M : (cont_index (map Fin z) (Fin e) (Fin b) <= cont_index (map Fin z) (Fin e) (Fin t))%Z).
      { apply cont_index_mono; auto; [discriminate|]. unfold feq in E. apply andb_true_iff in E. tauto. }
      lia.
Qed.
