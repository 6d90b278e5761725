(** Weights and prior predictions of pipelines. *)
From Coq Require Import ZArith NArith QArith Qreals List Bool Reals String Lia Lra.
From Verif.Proofs Require Import FlagFacts TransformFacts FrameFacts FitUser UnitFacts PipeRuns PipeRows PipeSteps.
From Verif.Model Require Import Num BinarySearch Flags Ecdf BinTransform Frames LexBins Train Predict Link Estimators WholeFit Refit Pipe.
From Verif.Spec Require Import SearchSpec BinningSpec FrameSpec PipeSpec PredictSpec.
Import ListNotations.

(** A column that is not binned. *)
Lemma raw_column b T b' Y Xt c : table T -> table Y -> bin_fit b T = FOk b' -> fst (bin_transform b' Y) = FOk Xt ->
  (forall p, ~ feature_column b T c p) -> get_column (fr_cols Xt) c = get_column (fr_cols Y) c.
Proof.
  intros TT TY F E No. destruct (binned_table _ _ _ _ _ TT TY F E) as [TX SX].
  destruct (bin_transform b' Y) as [? ?] eqn:H. cbn in E. subst.
  destruct (transform_columns _ _ _ _ _ _ TT TY F H) as [(S1 & S2 & S3) C].
  destruct (get_column (fr_cols Y) c) as [x|] eqn:G.
  - apply get_of_in; [apply TX|]. apply (C c x); [apply get_in; exact G|exact No].
  - apply get_none. intro I. change (map fst (fr_cols Xt)) with (labels Xt) in I. rewrite S3 in I. 
    apply in_map_iff in I. destruct I as ([d v] & E & I). cbn in E. subst d. apply (get_of_in _ _ _ (proj1 TY)) in I. congruence.
Qed.

Section Weights.
Variable gamma_median : R -> R.
Variable beta_ppf : R -> R -> R -> R.
Variable erfinv : R -> R.
Variable bad : R.
Variable k : kind.
Variable weight prior : option label.
Variable cfg : settings.
Variable rate : nat -> nat -> R.
Variable accepted : list target -> bool.
Variable style : list label -> group.
Variable bins : label -> Z.
Variable props : option (label -> option N).
Variable inplace : bool.
Let b := pipeline_binner bins props inplace.
Notation train := (fit_object gamma_median beta_ppf erfinv bad k (has_prior prior) cfg rate accepted style).
Notation run := (pipe_fit gamma_median beta_ppf erfinv bad k weight prior cfg rate accepted style).
Notation ask := (pipe_predict k weight prior).

Lemma undeclared_raw T b' Y Xt c : table T -> table Y -> bin_fit b T = FOk b' -> fst (bin_transform b' Y) = FOk Xt ->
  undeclared props (Some c) -> get_column (fr_cols Xt) c = get_column (fr_cols Y) c.
Proof.
  intros TT TY F E U. apply (raw_column b T b'); auto. intros p (H1 & H2 & H3). exact (U c eq_refl p H3).
Qed.

Lemma pipe_parts fuel o T y P1 : run fuel {| l_binner := b; l_object := o |} T y = (None, P1) ->
  exists Xt W, fst (bin_transform (l_binner P1) T) = FOk Xt /\ train_targets weight prior Xt y = Some W /\
    train fuel o {| d_cols := feature_columns weight prior Xt; d_targets := W |} = (None, l_object P1).
Proof.
  unfold pipe_fit. cbn [l_binner l_object]. destruct (bin_fit b T) as [b1|]; [|discriminate]. cbv zeta.
  destruct (fst (bin_transform b1 T)) as [Xt|] eqn:E; [|discriminate]. destruct (train_targets weight prior Xt y) as [W|] eqn:ET; [|discriminate].
  destruct (fit_object _ _ _ _ _ _ _ _ _ _ _ _ _) as [[e|] o'] eqn:FO; [discriminate|]. intro H. injection H as <-.
  cbn [l_binner l_object]. exists Xt, W. rewrite ET. auto.
Qed.

Lemma raw_targets fuel o T y P1 : table T -> undeclared props weight -> undeclared props prior ->
  run fuel {| l_binner := b; l_object := o |} T y = (None, P1) ->
  exists Xt W, fst (bin_transform (l_binner P1) T) = FOk Xt /\ train_targets weight prior T y = Some W /\
    train fuel o {| d_cols := feature_columns weight prior Xt; d_targets := W |} = (None, l_object P1).
Proof.
  intros TT Uw Up H. pose proof (pipe_trained _ _ _ _ _ _ _ _ _ _ _ _ _ _ _ _ H) as F. cbn [l_binner] in F.
  destruct (pipe_parts _ _ _ _ _ H) as (Xt & W & A1 & A2 & A3). exists Xt, W. split; [exact A1|]. split; [|exact A3].
  assert (EW : read_weights weight Xt = read_weights weight T).
  { unfold read_weights. rewrite (proj2 (binned_table _ _ _ _ _ TT TT F A1)). destruct weight as [w|]; [|reflexivity].
    rewrite (undeclared_raw T _ T Xt w TT TT F A1 Uw). reflexivity. }
  assert (EP : read_priors prior Xt = read_priors prior T).
  { unfold read_priors. rewrite (proj2 (binned_table _ _ _ _ _ TT TT F A1)). destruct prior as [w|]; [|reflexivity].
    rewrite (undeclared_raw T _ T Xt w TT TT F A1 Up). reflexivity. }
  rewrite <- A2. unfold train_targets. rewrite EW, EP. reflexivity.
Qed.
Lemma raw_priors fuel o T y P1 Y : table T -> table Y -> undeclared props prior ->
  run fuel {| l_binner := b; l_object := o |} T y = (None, P1) ->
  ask P1 Y = match fst (bin_transform (l_binner P1) Y), predict_targets prior Y with
             | FOk Xt, Some W => predict_frame k (has_prior prior) (l_object P1) {| d_cols := feature_columns weight prior Xt; d_targets := W |}
             | _, _ => None
             end.
Proof.
  intros TT TY Up H. pose proof (pipe_trained _ _ _ _ _ _ _ _ _ _ _ _ _ _ _ _ H) as F. cbn [l_binner] in F.
  unfold pipe_predict. destruct (fst (bin_transform (l_binner P1) Y)) as [Xt|] eqn:E; [|reflexivity].
  replace (predict_targets prior Xt) with (predict_targets prior Y); [reflexivity|]. unfold predict_targets, read_priors.
  rewrite (proj2 (binned_table _ _ _ _ _ TT TY F E)). destruct prior as [w|]; [|reflexivity].
  rewrite (undeclared_raw T _ Y Xt w TT TY F E Up). reflexivity.
Qed.

Lemma finite_all_in l l' : finite_all l = Some l' -> forall x, In x l' -> In (Some x) l.
Proof.
  revert l'. induction l as [|[a|] r IH]; intros l' H x Hx; cbn [finite_all] in H; try discriminate.
  - injection H as <-. contradiction.
  - destruct (finite_all r) as [r'|]; [|discriminate]. injection H as <-. destruct Hx as [<-|Hx]; [left; reflexivity|]. right. apply (IH r'); auto.
Qed.
Lemma map2_in {A B C} (f : A -> B -> C) : forall x y z, In z (map2 f x y) -> exists u v, In u x /\ In v y /\ z = f u v.
Proof.
  induction x as [|a x IH]; intros [|c y] z H; cbn [map2] in H; try contradiction.
  destruct H as [<-|H]; [exists a, c; cbn; auto|]. destruct (IH y z H) as (u & v & U & V & E). exists u, v. cbn. auto.
Qed.
Lemma train_weights X y W : train_targets weight prior X y = Some W -> forall w, weight = Some w ->
  exists v, get_column (fr_cols X) w = Some v /\ forall t, In t W -> exists q, In (Fin q) v /\ v_w t = Q2R q.
Proof.
  unfold train_targets, read_weights. intros H w Ew. rewrite Ew in H. destruct (get_column (fr_cols X) w) as [v|]; [|discriminate].
  destruct (finite_all (map real_value v)) as [ws|] eqn:F; [|discriminate]. destruct (read_priors prior X) as [p|]; [|discriminate].
  injection H as <-. exists v. split; [reflexivity|]. intros t Ht. destruct (map2_in _ _ _ _ Ht) as ([pp wt] & u & I & _ & ->).
  destruct (map2_in _ _ _ _ I) as (p1 & w1 & _ & I2 & E). injection E as -> ->. cbn [v_w fst snd].
  pose proof (finite_all_in _ _ F w1 I2) as I3. apply in_map_iff in I3. destruct I3 as ([q| | |] & E3 & I3); cbn in E3; try discriminate. injection E3 as <-. eauto.
Qed.

Lemma binned_weights fuel o T y P1 w : props = None -> weight = Some w -> (2 <= bins w <= 100000000)%Z -> table T ->
  run fuel {| l_binner := b; l_object := o |} T y = (None, P1) ->
  exists d, train fuel o d = (None, l_object P1) /\
  forall t, In t (d_targets d) -> exists n : Z, v_w t = IZR n /\ (-1 <= n < bins w)%Z.
Proof.
  intros Np Ew Hb TT H. pose proof (pipe_trained _ _ _ _ _ _ _ _ _ _ _ _ _ _ _ _ H) as F. cbn [l_binner] in F.
  destruct (pipe_parts _ _ _ _ _ H) as (Xt & W & A1 & A2 & A3). eexists. split; [exact A3|]. cbn [d_targets]. intros t Ht.
  destruct (train_weights _ _ _ A2 w Ew) as (v & G & Hv). destruct (Hv t Ht) as (q & Iq & ->). apply get_in in G.
  destruct (bin_transform (l_binner P1) T) as [? ?] eqn:HT. cbn in A1. subst.
  destruct (transform_columns _ _ _ _ _ _ TT TT F HT) as [(S1 & S2 & S3) C].
  assert (NX : NoDup (labels Xt)) by (rewrite S3; apply TT).
  assert (I : In w (labels T)) by (rewrite <- S3; change w with (fst (w, v)); apply in_map; exact G).
  destruct (learned_continuous bins None inplace w T _ TT F) as (p & x0 & L & Hx0 & Q1 & Q2 & Q3); auto.
  { exists 1%N. split; [reflexivity|]. split; reflexivity. }
  destruct (C w x0 Hx0) as [C1 _]. destruct (C1 _ _ L) as (u & U1 & U2).
  apply (get_of_in _ _ _ NX) in U1, G. assert (u = v) by congruence. subst u.
  destruct (no_values (combine x0 (ones T))) as [E|Hn].
  { unfold fit_column in U2. rewrite E in U2. cbn in U2. injection U2 as <-. apply in_map_iff in Iq. destruct Iq as (? & E1 & _). injection E1 as <-.
    exists (-1)%Z. split; [unfold Q2R; cbn; lra|lia]. }
  destruct (fit_continuous p (bins w) (1 # 1000000000) (1 # 10) (combine x0 (ones T)) Q1 Q2 (ones_positive x0 T) Hn) as (e & bb & cc & zs & cs & Ef & D & V & _); try lia.
  { split; reflexivity || (intro; discriminate). }
  { intro; discriminate. }
  { apply enough_for; lia. }
  change (b_eps (pipeline_binner bins None inplace)) with (1 # 1000000000)%Q in U2. change (b_tol (pipeline_binner bins None inplace)) with (1 # 10)%Q in U2.
  assert (US : usable (fit_column p (bins w) (1 # 1000000000) (1 # 10) (combine x0 (ones T)))) by (rewrite Ef; exact Logic.I).
  destruct (bins_in_range p (bins w) (1 # 1000000000) (1 # 10) (combine x0 (ones T)) x0 Q1 (proj1 Hb) US) as (ys & R1 & R2 & R3).
  rewrite R1 in U2. injection U2 as <-. destruct (R3 _ Iq) as [M|(n & B1 & B2)].
  - red in M. injection M as ->. exists (-1)%Z. split; [unfold Q2R; cbn; lra|lia].
  - red in B2. injection B2 as ->. exists n. split; [unfold Q2R; cbn; field|]. rewrite Ef in B1. destruct V as (V1 & V2 & _). unfold n_learned in B1. cbn in B1. lia.
Qed.
End Weights.
