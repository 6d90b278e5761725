(** Predictions of pipelines are step functions of their continuous columns. *)
From Coq Require Import ZArith NArith QArith Qreals List Bool Reals String Lia Lqa.
From Verif.Proofs Require Import FlagFacts TransformFacts FrameFacts FitUser UnitFacts PipeRuns PipeRows.
From Verif.Model Require Import Num BinarySearch Flags Ecdf BinTransform Frames LexBins Train Predict Link Estimators WholeFit Refit Pipe.
From Verif.Spec Require Import SearchSpec BinningSpec FrameSpec PipeSpec PredictSpec.
Import ListNotations.

Lemma index_same z e x y : sorted_array z ->
  (forall b, In b (removelast z) -> fle (fsub x e) b = fle (fsub y e) b) -> cont_index z e x = cont_index z e y.
Proof.
  intros Hs H. destruct (cont_index_spec z e x Hs) as (kx & (X1 & X2 & X3) & _ & Ex). destruct (cont_index_spec z e y Hs) as (ky & (Y1 & Y2 & Y3) & _ & Ey).
  assert (G : forall j v, elem z j v -> (j < Z.of_nat (List.length z) - 1)%Z -> In v (removelast z)).
  { intros j v [J1 J2] J3. assert (z <> []) by (intro E0; subst z; destruct (Z.to_nat j); discriminate).
    rewrite (app_removelast_last NaN H0) in J2, J3. rewrite app_length in J3. cbn [List.length] in J3.
    rewrite nth_error_app1 in J2 by lia. apply nth_error_In in J2. exact J2. }
  assert (NB : forall j, (0 <= j < Z.of_nat (List.length z))%Z -> exists v, elem z j v).
  { intros j Hj. destruct (nth_error z (Z.to_nat j)) as [v|] eqn:E; [exists v; split; [lia|exact E]|]. apply nth_error_None in E. lia. }
  rewrite Ex, Ey. destruct (Z.lt_trichotomy (Z.min kx (Z.of_nat (List.length z) - 1)) (Z.min ky (Z.of_nat (List.length z) - 1))) as [L|[L|L]]; auto; exfalso.
  - destruct (NB kx) as (v & Ev); [lia|]. specialize (X3 kx v Ev ltac:(lia) ltac:(lia)). specialize (Y2 kx v Ev ltac:(lia) ltac:(lia)).
    unfold fge in *. rewrite (H v) in X3 by (apply (G kx); auto; lia). congruence.
  - destruct (NB ky) as (v & Ev); [lia|]. specialize (Y3 ky v Ev ltac:(lia) ltac:(lia)). specialize (X2 ky v Ev ltac:(lia) ltac:(lia)).
    unfold fge in *. rewrite <- (H v) in Y3 by (apply (G ky); auto; lia). congruence.
Qed.

Definition finite_of (l : list fnum) : list Q := flat_map (fun v => match v with Fin q => [q] | _ => [] end) l.
Lemma finite_of_length l : (List.length (finite_of l) <= List.length l)%nat.
Proof. induction l as [|[q| | |] r IH]; [cbn; lia|..]; cbn [finite_of flat_map app List.length]; unfold finite_of in IH; lia. Qed.
Lemma removelast_length {A} (l : list A) : List.length (removelast l) = (List.length l - 1)%nat.
Proof. induction l as [|a [|b r] IH]; [reflexivity|reflexivity|]. change (removelast (a :: b :: r)) with (a :: removelast (b :: r)). cbn [List.length] in *. lia. Qed.

Lemma steps_column p n eps tol zw : check_flags_consistency p = FlagsOk -> is_continuous_set p = true -> has_magic_missing_set p = false ->
  positive_weights zw -> 0 <= tol < 1 -> 0 <= eps -> ((2 <= n)%Z -> eps < (1 - tol) / inject_Z n) -> (2 <= n)%Z ->
  exists L, (Z.of_nat (List.length L) <= n - 1)%Z /\
  forall v v', same_step L v v' -> transform_column p (fit_column p n eps tol zw) [v] = transform_column p (fit_column p n eps tol zw) [v'].
Proof.
  intros Hc Hk Hm Hp Ht He Hn H2. destruct (no_values zw) as [E|Hx].
  - exists []. split; [cbn; lia|]. intros v v' _. unfold fit_column. rewrite E. reflexivity.
  - destruct (fit_continuous p n eps tol zw Hc Hk Hp Hx H2 Ht He (Hn H2)) as (e & bb & cc & zs & cs & Ef & D & V & _).
    rewrite Ef. destruct V as (V1 & V2 & _). assert (V3 : (Z.of_nat (List.length (tl bb)) <= n)%Z) by (destruct bb; cbn [tl List.length] in *; lia).
    destruct (fitted_transform p n eps tol zw e bb cc [] Hc H2 Ef) as [_ Hs].
    exists (match e with Fin d => map (fun b => b + d) (finite_of (removelast (tl bb))) | _ => [] end). split.
    + destruct e as [d| | |]; cbn [List.length]; try lia. rewrite map_length. pose proof (finite_of_length (removelast (tl bb))). rewrite removelast_length in H.
      destruct bb as [|b0 [|b1 r]]; cbn [tl List.length] in *; lia.
    + intros v v' S. destruct (fitted_transform p n eps tol zw e bb cc [v] Hc H2 Ef) as [-> _].
      destruct (fitted_transform p n eps tol zw e bb cc [v'] Hc H2 Ef) as [-> _]. cbn [map]. do 2 f_equal. unfold tvalue. rewrite !(plain_finite p _ Hm).
      destruct v as [q| | |], v' as [q'| | |]; cbn [same_step isfinite] in *; try contradiction; try reflexivity.
      rewrite Hk. do 2 f_equal. apply index_same; auto. intros b Hb. destruct e as [d| | |].
      * destruct b as [t| | |]; try reflexivity. cbn [fsub fneg fadd fle].
        assert (I : In (t + d) (map (fun b => b + d) (finite_of (removelast (tl bb))))).
        { apply (in_map (fun b => b + d)). unfold finite_of. apply in_flat_map. exists (Fin t). split; [exact Hb|left; reflexivity]. }
        specialize (S _ I). apply eq_true_iff_eq. rewrite !Qle_bool_iff. split; intro Q.
        -- assert (q' <= t + d) by (apply S; lra). lra.
        -- assert (q <= t + d) by (apply S; lra). lra.
      * destruct b; reflexivity.
      * destruct b; reflexivity.
      * destruct b; reflexivity.
Qed.

(** Number of different predictions. *)
Lemma same_step_refl L v : same_step L v v.
Proof. destruct v; cbn; auto. intros t _. tauto. Qed.
Definition step_of (L : list Q) (v : fnum) : nat :=
  match v with Fin q => List.length (filter (fun t => Qle_bool q t) L) | _ => S (List.length L) end.
Lemma filter_bound {A} (f : A -> bool) l : (List.length (filter f l) <= List.length l)%nat.
Proof. induction l as [|a r IH]; cbn; [lia|]. destruct (f a); cbn; lia. Qed.
Lemma step_bound L v : (step_of L v <= S (List.length L))%nat.
Proof. destruct v; cbn [step_of]; try lia. pose proof (filter_bound (fun t => Qle_bool q t) L). lia. Qed.
Lemma filter_sub {A} (f g : A -> bool) l : (forall x, In x l -> f x = true -> g x = true) -> List.length (filter f l) = List.length (filter g l) ->
  forall x, In x l -> f x = g x.
Proof.
  induction l as [|a r IH]; intros H E x Hx; [contradiction|]. cbn [filter] in E.
  assert (Hr : forall x, In x r -> f x = true -> g x = true) by (intros z Hz; apply H; right; exact Hz).
  assert (LE : (List.length (filter f r) <= List.length (filter g r))%nat).
  { clear - Hr. induction r as [|b r IH]; [cbn; lia|]. cbn [filter]. specialize (IH (fun x Hx => Hr x (or_intror Hx))).
    pose proof (Hr b (or_introl eq_refl)). destruct (f b), (g b); cbn [List.length]; try lia; specialize (H eq_refl); discriminate. }
  pose proof (H a (or_introl eq_refl)) as Ha. destruct (f a) eqn:Fa, (g a) eqn:Ga; cbn [List.length] in E.
  - destruct Hx as [<-|Hx]; [congruence|]. apply IH; auto.
  - specialize (Ha eq_refl). discriminate.
  - lia.
  - destruct Hx as [<-|Hx]; [congruence|]. apply IH; auto.
Qed.
Lemma step_same L v v' : step_of L v = step_of L v' -> same_step L v v'.
Proof.
  assert (G : forall q q', step_of L (Fin q) = step_of L (Fin q') -> q <= q' -> same_step L (Fin q) (Fin q')).
  { intros q q' E Q t Ht. cbn [step_of] in E.
    pose proof (filter_sub (fun t => Qle_bool q' t) (fun t => Qle_bool q t) L) as F.
    assert (F0 : Qle_bool q' t = Qle_bool q t).
    { apply F; auto. intros x _ H. apply Qle_bool_iff in H. apply Qle_bool_iff. lra. }
    rewrite <- !Qle_bool_iff. rewrite F0. tauto. }
  destruct v as [q| | |], v' as [q'| | |]; intro E; cbn [same_step]; auto.
  1:{ destruct (Qlt_le_dec q q') as [H|H]; [apply G; auto; lra|]. intros t Ht. specialize (G q' q (eq_sym E) H t Ht). tauto. }
  all: cbn [step_of] in E; match goal with q : Q |- _ => pose proof (filter_bound (fun t => Qle_bool q t) L) end; lia.
Qed.

Lemma few_values (r : list R) (cl : nat -> nat) (B : nat) : (forall i, (i < List.length r)%nat -> (cl i < B)%nat) ->
  (forall i j, (i < List.length r)%nat -> (j < List.length r)%nat -> cl i = cl j -> nth i r 0%R = nth j r 0%R) ->
  (List.length (nodup Req_EM_T r) <= B)%nat.
Proof.
  intros Hb Hs.
  set (g := fun c => nth (hd 0%nat (filter (fun i => Nat.eqb (cl i) c) (seq 0 (List.length r)))) r 0%R).
  assert (I : incl (nodup Req_EM_T r) (map g (seq 0 B))).
  { intros x Hx. apply nodup_In in Hx. destruct (In_nth _ _ 0%R Hx) as (i & Hi & <-).
    apply in_map_iff. exists (cl i). split; [|apply in_seq; specialize (Hb i Hi); lia]. unfold g.
    destruct (filter (fun i0 => Nat.eqb (cl i0) (cl i)) (seq 0 (List.length r))) as [|j l] eqn:E.
    - exfalso. assert (F : In i (filter (fun i0 => Nat.eqb (cl i0) (cl i)) (seq 0 (List.length r)))).
      { apply filter_In. split; [apply in_seq; lia|apply Nat.eqb_refl]. } rewrite E in F. exact F.
    - cbn [hd]. assert (F : In j (filter (fun i0 => Nat.eqb (cl i0) (cl i)) (seq 0 (List.length r)))) by (rewrite E; left; reflexivity).
      apply filter_In in F. destruct F as [F1 F2]. apply in_seq in F1. apply Nat.eqb_eq in F2. apply Hs; auto; lia. }
  pose proof (NoDup_incl_length (NoDup_nodup Req_EM_T r) I) as Q. rewrite map_length, seq_length in Q. exact Q.
Qed.

Lemma enough_for n : (n <= 100000000)%Z -> (2 <= n)%Z -> (1 # 1000000000) < (1 - (1 # 10)) / inject_Z n.
Proof.
  intros H1 H2. apply Qlt_shift_div_l.
  - change 0 with (inject_Z 0). rewrite <- Zlt_Qlt. lia.
  - assert (inject_Z n <= inject_Z 100000000) by (rewrite <- Zle_Qle; lia).
    change (inject_Z 100000000) with (100000000 # 1) in *. lra.
Qed.

Section Steps.
Variable gamma_median : R -> R.
Variable beta_ppf : R -> R -> R -> R.
Variable erfinv : R -> R.
Variable bad : R.
Variable k : kind.
Variable weight prior : option label.
Variable cfg : settings.
Variable rate : nat -> nat -> R.
Variable accepted : list target -> bool.
Variable style : list label -> group.
Variable bins : label -> Z.
Variable props : option (label -> option N).
Variable inplace : bool.
Let b := pipeline_binner bins props inplace.
Notation run := (pipe_fit gamma_median beta_ppf erfinv bad k weight prior cfg rate accepted style).
Notation ask := (pipe_predict k weight prior).

Lemma learned_continuous c T b' : table T -> bin_fit b T = FOk b' -> continuous_column props c -> In c (labels T) ->
  exists p t, learned b T c p (fit_column p (bins c) (b_eps b) (b_tol b) (combine t (ones T))) /\ column_is T c t /\
    check_flags_consistency p = FlagsOk /\ is_continuous_set p = true /\ has_magic_missing_set p = false.
Proof.
  intros TT F (p & Hd & Hk & Hm) Hin.
  destruct (bin_fit_spec _ _ _ (proj1 TT) F) as (B1 & B2 & B3 & l & B4 & B5 & B6 & B7 & B8 & _).
  assert (In_c : In c (map fst l)) by (apply B6; exists p; split; [exact Hin|split; [discriminate|exact Hd]]).
  apply in_map_iff in In_c. destruct In_c as ([d g] & E & I). cbn in E. subst d.
  destruct (B7 c g I) as (_ & q & Q & L). apply property_declares in Q. destruct Q as [Q1 Q2].
  assert (q = p) by apply (declares_fun _ _ _ _ Q1 Hd). subst q.
  pose proof L as L0. destruct L0 as (t & ws & L1 & L2 & L3 & L4). cbn [row_weights b_weight b pipeline_binner] in L3. subst ws.
  fold (ones T) in L4. exists p, t. subst g. auto.
Qed.

Lemma steps_pipe c fuel o T y P1 : continuous_column props c -> (2 <= bins c <= 100000000)%Z -> table T -> In c (labels T) ->
  run fuel {| l_binner := b; l_object := o |} T y = (None, P1) ->
  exists L, (Z.of_nat (List.length L) <= bins c - 1)%Z /\
  forall Y r Y' r' i j, table Y -> table Y' -> ask P1 Y = Some r -> ask P1 Y' = Some r' ->
    (i < List.length (fr_index Y))%nat -> (j < List.length (fr_index Y'))%nat ->
    rows_agree (fun d v v' => if label_eqb d c then same_step L v v' else v = v') Y i Y' j ->
    nth_error r i = nth_error r' j.
Proof.
  intros Hc Hb TT Hin F. pose proof (pipe_trained _ _ _ _ _ _ _ _ _ _ _ _ _ _ _ _ F) as F0. cbn [l_binner] in F0.
  destruct (learned_continuous c T _ TT F0 Hc Hin) as (p & t & L & Ht & Q1 & Q2 & Q3).
  destruct (steps_column p (bins c) (b_eps b) (b_tol b) (combine t (ones T)) Q1 Q2 Q3 (ones_positive t T)) as (Th & HL & HS); try (cbn; lra); try lia.
  { intro H2. apply enough_for; [apply (proj2 Hb)|exact H2]. }
  exists Th. split; [exact HL|]. intros Y r Y' r' i j TY TY' A A' Hi Hj S.
  apply (pipe_same_row _ _ _ _ _ _ _ _ _ _ _ _ _ _ _ _ TT F Y r Y' r' i j TY TY' A A' Hi Hj).
  intros d x x' Hx Hx'. specialize (S d x x' Hx Hx'). cbv beta in S. cbn [l_binner]. destruct (label_eqb d c) eqn:Ed; [|left; exact S].
  apply label_eqb_iff in Ed. subst d. right. exists p, (fit_column p (bins c) (b_eps b) (b_tol b) (combine t (ones T))). split; auto.
Qed.

Lemma count_pipe c fuel o T y P1 : continuous_column props c -> (2 <= bins c <= 100000000)%Z -> table T -> In c (labels T) ->
  run fuel {| l_binner := b; l_object := o |} T y = (None, P1) ->
  forall Y r, table Y -> constant_but c Y -> ask P1 Y = Some r -> (Z.of_nat (List.length (nodup Req_EM_T r)) <= bins c + 1)%Z.
Proof.
  intros Hc Hb TT Hin F Y r TY Hk A. destruct (steps_pipe c fuel o T y P1 Hc Hb TT Hin F) as (L & HL & H).
  assert (LB : List.length r = List.length (fr_index Y) \/ fr_index Y = []).
  { destruct (fr_index Y) as [|a ix] eqn:E; [right; reflexivity|left]. rewrite <- E.
    apply (pipe_same_row _ _ _ _ _ _ _ _ _ _ _ _ _ _ _ _ TT F Y r Y r 0 0 TY TY A A); try (rewrite E; cbn; lia).
    intros d x x' Hx Hx'. left. apply (get_of_in _ _ _ (proj1 TY)) in Hx, Hx'. congruence. }
  destruct LB as [LB|LB].
  2:{ assert (r = []).
      { unfold pipe_predict in A. destruct (fst (bin_transform (l_binner P1) Y)) as [Xt|] eqn:E; [|discriminate].
        pose proof (pipe_trained _ _ _ _ _ _ _ _ _ _ _ _ _ _ _ _ F) as F0. destruct (binned_table _ _ _ _ _ TT TY F0 E) as [TX SX].
        destruct (predict_targets prior Xt) as [t|] eqn:Pt; [|discriminate]. pose proof (priors_length _ _ _ TX Pt) as Lt. rewrite SX, LB in Lt.
        destruct (b_groups (l_object P1)) as [gl|] eqn:G; [|unfold predict_frame in A; rewrite G in A; discriminate].
        destruct (frame_row _ _ _ _ _ _ G A) as (s & columns & B1 & B2 & B3 & B4). cbn [d_targets] in B3. rewrite Lt in B3. destruct r; [reflexivity|discriminate]. }
      subst r. cbn. lia. }
  set (cl := fun i => match get_column (fr_cols Y) c with Some x => step_of L (nth i x NaN) | None => 0%nat end).
  assert (B : (List.length (nodup Req_EM_T r) <= S (S (List.length L)))%nat).
  { apply (few_values r cl).
    - intros i Hi. unfold cl. destruct (get_column (fr_cols Y) c) as [x|]; [|lia]. pose proof (step_bound L (nth i x NaN)). lia.
    - intros i j Hi Hj E. assert (E2 : nth_error r i = nth_error r j).
      { apply (H Y r Y r i j TY TY A A); try lia. intros d x x' Hx Hx'. 
        assert (x' = x) by (apply (get_of_in _ _ _ (proj1 TY)) in Hx, Hx'; congruence). subst x'.
        destruct (label_eqb d c) eqn:Ed.
        - apply label_eqb_iff in Ed. subst d. apply step_same. unfold cl in E. rewrite (get_of_in _ _ _ (proj1 TY) Hx) in E. exact E.
        - apply (Hk d); auto; try (rewrite (proj2 TY d x Hx); lia). intro E3. subst d. rewrite label_eqb_refl in Ed. discriminate. }
      rewrite (nth_error_nth' r 0%R Hi), (nth_error_nth' r 0%R Hj) in E2. congruence. }
  lia.
Qed.
End Steps.

Lemma binned_priors : forall gm bppf erfinv bad k weight c cfg rate accepted style bins inplace fuel o T y P1,
  (2 <= bins c <= 100000000)%Z -> table T -> In c (labels T) ->
  pipe_fit gm bppf erfinv bad k weight (Some c) cfg rate accepted style fuel
    {| l_binner := pipeline_binner bins None inplace; l_object := o |} T y = (None, P1) ->
  exists L, (Z.of_nat (List.length L) <= bins c - 1)%Z /\
  forall Y r Y' r' i j, table Y -> table Y' -> pipe_predict k weight (Some c) P1 Y = Some r -> pipe_predict k weight (Some c) P1 Y' = Some r' ->
    (i < List.length (fr_index Y))%nat -> (j < List.length (fr_index Y'))%nat ->
    rows_agree (fun d v v' => if label_eqb d c then same_step L v v' else v = v') Y i Y' j ->
    nth_error r i = nth_error r' j.
Proof.
  intros gm bppf erfinv bad k weight c cfg rate accepted style bins inplace fuel o T y P1 Hb TT Hin F.
  apply (steps_pipe gm bppf erfinv bad k weight (Some c) cfg rate accepted style bins None inplace c fuel o T y P1); auto.
  exists 1%N. repeat split.
Qed.
