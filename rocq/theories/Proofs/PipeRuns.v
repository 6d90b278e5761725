(** Whole pipelines: other units, other scales, weights and prior predictions. *)
From Coq Require Import ZArith NArith QArith Qreals List Bool Reals String Lia Lqa.
From Verif.Model Require Import Num BinarySearch Flags Ecdf BinTransform Frames LexBins Train Predict Link Estimators WholeFit Refit Pipe.
From Verif.Spec Require Import SearchSpec BinningSpec FrameSpec PipeSpec.
From Verif.Proofs Require Import FlagFacts TransformFacts FrameFacts UnitFacts PipeFacts.
Import ListNotations.

Definition ones (X : frame) : list Q := map (fun _ => 1%Q) (fr_index X).
Lemma ones_positive x X : positive_weights (combine x (ones X)).
Proof.
  intros v w H. apply in_combine_r in H. unfold ones in H. apply in_map_iff in H. destruct H as (z & <- & _). reflexivity.
Qed.
Lemma fst_combine {A B} (l : list A) (l' : list B) : List.length l = List.length l' -> map fst (combine l l') = l.
Proof. revert l'. induction l as [|a r IH]; intros [|b r'] H; cbn in *; try discriminate; auto. rewrite IH; auto. Qed.

Lemma declares_fun props c p q : declares props c p -> declares props c q -> p = q.
Proof. unfold declares. destruct props; congruence. Qed.

Section Runs.
Variable gamma_median : R -> R.
Variable beta_ppf : R -> R -> R -> R.
Variable erfinv : R -> R.
Variable bad : R.
Variable k : kind.
Variable weight prior : option label.
Variable cfg : settings.
Variable rate : nat -> nat -> R.
Variable accepted : list target -> bool.
Variable style : list label -> group.
Variable bins : label -> Z.
Variable props : option (label -> option N).
Variable inplace : bool.
Let b := pipeline_binner bins props inplace.
Notation run := (pipe_fit gamma_median beta_ppf erfinv bad k weight prior cfg rate accepted style).
Notation ask := (pipe_predict k weight prior).

(** The column [x] gets the same bins from the binning learned on [t] and, on the other
    scale, from the binning learned on [t] on that scale. *)
Definition same_bins (c : label) (f : Q -> Q) (X : frame) (p : N) (t x : list fnum) : Prop :=
  transform_column p (fit_column p (bins c) (b_eps b) (b_tol b) (moved f (combine t (ones X)))) (map (on_values f) x) =
  transform_column p (fit_column p (bins c) (b_eps b) (b_tol b) (combine t (ones X))) x.

Lemma pipe_scaled c f X p t : order_preserving f -> declares props c p ->
  table X -> column_is X c t -> (check_flags_consistency p = FlagsOk -> same_bins c f X p t t) ->
  forall fuel o y e P1 e' P1',
  run fuel {| l_binner := b; l_object := o |} X y = (e, P1) ->
  run fuel {| l_binner := b; l_object := o |} (rescaled c f X) y = (e', P1') ->
  e = e' /\ l_object P1 = l_object P1' /\
  (e = None -> forall Y, table Y ->
     (forall x, column_is Y c x -> check_flags_consistency p = FlagsOk -> same_bins c f X p t x) ->
     ask P1' (rescaled c f Y) = ask P1 Y).
Proof.
  intros Hf Hd HX Ht Hsame fuel o y e P1 e' P1'.
  assert (Htr : forall b1, bin_fit b X = FOk b1 -> forall Y, table Y ->
     (forall x, column_is Y c x -> check_flags_consistency p = FlagsOk -> same_bins c f X p t x) ->
     fst (bin_transform (with_fitted b (scale_fits c f (b_eps b) (fitted_of b1))) (rescaled c f Y)) = fst (bin_transform b1 Y)).
  { intros b1 F Y HY Hgood.
    destruct (bin_fit_spec _ _ _ (proj1 HX) F) as (B1 & B2 & B3 & l & B4 & B5 & B6 & B7 & B8 & _).
    assert (El : fitted_of b1 = l) by (unfold fitted_of; rewrite B4; reflexivity).
    assert (In_c : In c (map fst l)).
    { apply B6. exists p. split; [|split; [discriminate|exact Hd]]. change c with (fst (c, t)). apply in_map. exact Ht. }
    assert (Ep : binning_feature_property (b_props b1) c = Prop_ p /\ check_flags_consistency p = FlagsOk).
    { apply in_map_iff in In_c. destruct In_c as ([d g] & E & I). cbn in E. subst d.
      destruct (B7 c g I) as (_ & q & Q & _). rewrite B1. split; [|apply property_declares in Q; destruct Q as [Q1 Q2]].
      - rewrite Q. apply property_declares in Q. destruct Q as [Q1 _]. f_equal. apply (declares_fun _ _ _ _ Q1 Hd).
      - rewrite <- (declares_fun _ _ _ _ Q1 Hd). exact Q2. }
    apply (bin_transform_scaled c f b1 _ Y p); auto.
    - congruence.
    - exists (b_eps b). split; [reflexivity|]. intros g x I Hx. rewrite El in I.
      destruct (B7 c g I) as (_ & q & Q & t' & ws & L1 & L2 & L3 & L4).
      assert (q = p) by (apply property_declares in Q; destruct Q as [Q1 _]; apply (declares_fun _ _ _ _ Q1 Hd)).
      subst q. assert (t' = t) by (pose proof (get_of_in _ _ _ (proj1 HX) L1); pose proof (get_of_in _ _ _ (proj1 HX) Ht); congruence). subst t'.
      cbn [row_weights b_weight b pipeline_binner] in L3. subst ws. fold (ones X) in L4. cbn [b_bins b pipeline_binner] in L4.
      specialize (Hgood x (get_in _ _ _ Hx) (proj2 Ep)). unfold same_bins in Hgood.
      rewrite (fit_u f Hf) in Hgood. rewrite L4. exact Hgood.
    - tauto.
    - rewrite El. auto.
    - rewrite El. auto. }
  unfold pipe_fit. cbn [l_binner l_object].
  rewrite (bin_fit_scaled c f b X p) by auto.
  destruct (bin_fit b X) as [b1|er] eqn:F.
  2:{ intros E1 E2. injection E1 as <- <-. injection E2 as <- <-. cbn. split; [auto|]. split; [auto|]. discriminate. }
  cbv zeta. rewrite (Htr b1 eq_refl X HX).
  2:{ intros x Hx Hc. assert (x = t) by (pose proof (get_of_in _ _ _ (proj1 HX) Hx); pose proof (get_of_in _ _ _ (proj1 HX) Ht); congruence). subst x. auto. }
  destruct (fst (bin_transform b1 X)) as [Xt|er].
  2:{ intros E1 E2. injection E1 as <- <-. injection E2 as <- <-. cbn. split; [auto|]. split; [auto|]. discriminate. }
  destruct (train_targets weight prior Xt y) as [T|].
  2:{ intros E1 E2. injection E1 as <- <-. injection E2 as <- <-. cbn. split; [auto|]. split; [auto|]. discriminate. }
  destruct (fit_object _ _ _ _ _ _ _ _ _ _ _ _ _) as [[er|] o'].
  - intros E1 E2. injection E1 as <- <-. injection E2 as <- <-. cbn. split; [auto|]. split; [auto|]. discriminate.
  - intros E1 E2. injection E1 as <- <-. injection E2 as <- <-. cbn [l_object]. split; auto. split; auto.
    intros _ Y HY Hgood. unfold pipe_predict. cbn [l_binner l_object]. pose proof (Htr b1 eq_refl Y HY Hgood) as E. cbv zeta in *. match goal with |- context [fst (bin_transform ?B (rescaled c f Y))] => change (fst (bin_transform B (rescaled c f Y))) with (fst (bin_transform (with_fitted b (scale_fits c f (b_eps b) (fitted_of b1))) (rescaled c f Y))) end. rewrite E. reflexivity.
Qed.

(** Other units. *)
Lemma enough_bins c : (bins c <= 100000000)%Z -> (2 <= bins c)%Z -> ((1 # 1000000000) < (1 - (1 # 10)) / inject_Z (bins c))%Q.
Proof.
  intros H1 H2. apply Qlt_shift_div_l.
  - change 0%Q with (inject_Z 0). rewrite <- Zlt_Qlt. lia.
  - assert (inject_Z (bins c) <= inject_Z 100000000)%Q by (rewrite <- Zle_Qle; lia).
    change (inject_Z 100000000) with (100000000 # 1)%Q in *. lra.
Qed.

Lemma units_pipe c a s X : continuous_column props c -> (0 < a)%Q -> (bins c <= 100000000)%Z ->
  table X -> In c (labels X) ->
  forall fuel o y e P1 e' P1',
  run fuel {| l_binner := b; l_object := o |} X y = (e, P1) ->
  run fuel {| l_binner := b; l_object := o |} (rescaled c (affine a s) X) y = (e', P1') ->
  e = e' /\ l_object P1 = l_object P1' /\
  (e = None -> forall Y, table Y -> ask P1' (rescaled c (affine a s) Y) = ask P1 Y).
Proof.
  intros (p & Hd & Hk & Hm) Ha Hb HX Hin fuel o y e P1 e' P1' E1 E2.
  apply in_map_iff in Hin. destruct Hin as ([d t] & E & Hin). cbn in E. subst d.
  assert (G : forall x, check_flags_consistency p = FlagsOk -> same_bins c (affine a s) X p t x).
  { intros x Hc. unfold same_bins. apply units_column; auto; try apply ones_positive; try (cbn; lra).
    intro H2. apply enough_bins; auto. }
  destruct (pipe_scaled c (affine a s) X p t (affine_order a s Ha) Hd HX Hin (G t) _ _ _ _ _ _ _ E1 E2) as (A1 & A2 & A3).
  split; [exact A1|]. split; [exact A2|]. intros He Y HY. apply A3; auto.
Qed.

(** Other scales in the same order. *)
Lemma order_pipe c f X t : continuous_column props c -> order_preserving f -> (bins c <= 100000000)%Z ->
  table X -> column_is X c t -> (forall v, In v t -> isfinite v = true \/ v = NaN) ->
  well_spread t -> well_spread (map (on_values f) t) ->
  forall fuel o y e P1 e' P1',
  run fuel {| l_binner := b; l_object := o |} X y = (e, P1) ->
  run fuel {| l_binner := b; l_object := o |} (rescaled c f X) y = (e', P1') ->
  e = e' /\ l_object P1 = l_object P1' /\
  (e = None -> forall Y x, table Y -> column_is Y c x -> (forall v, In v x -> isfinite v = true -> In v t) ->
     ask P1' (rescaled c f Y) = ask P1 Y).
Proof.
  intros (p & Hd & Hk & Hm) Hf Hb HX Hin Hfin Hw Hw' fuel o y e P1 e' P1' E1 E2.
  assert (El : map fst (combine t (ones X)) = t).
  { apply fst_combine. unfold ones. rewrite map_length. destruct HX as [_ HL]. apply (HL c t Hin). }
  assert (G : forall x, (forall v, In v x -> isfinite v = true -> In v t) -> check_flags_consistency p = FlagsOk -> same_bins c f X p t x).
  { intros x Hx Hc. unfold same_bins. change (b_eps b) with (1 # 1000000000)%Q. apply order_column; auto; try apply ones_positive; try (cbn; lra); rewrite ?El; auto.
    - intro H2. apply enough_bins; auto.
    - intros v w Hv. apply in_combine_l in Hv. auto. }
  destruct (pipe_scaled c f X p t Hf Hd HX Hin (G t (fun v H _ => H)) _ _ _ _ _ _ _ E1 E2) as (A1 & A2 & A3).
  split; [exact A1|]. split; [exact A2|]. intros He Y x HY Hx Hval. apply A3; auto.
  intros x' Hx'. assert (x' = x) by (pose proof (get_of_in _ _ _ (proj1 HY) Hx); pose proof (get_of_in _ _ _ (proj1 HY) Hx'); congruence). subst x'. apply G; auto.
Qed.
End Runs.
