(** Recoding the categories of a column in the same order. *)
From Coq Require Import ZArith NArith QArith Qabs List Bool Reals Lia Lqa.
From Verif.Proofs Require Import FlagFacts EcdfFacts TransformFacts FrameFacts UnitFacts PipeFacts PipeRuns RecodeColumn.
From Verif.Model Require Import Num Flags Ecdf BinTransform Frames LexBins Train Predict Link Estimators WholeFit Refit Pipe.
From Verif.Spec Require Import SearchSpec BinningSpec FrameSpec PipeSpec RecodeSpec.
Import ListNotations.

Definition climbing (U : list Q) : Prop := forall i j a b, (i < j)%nat -> nth_error U i = Some a -> nth_error U j = Some b -> (a < b)%Q.
Definition member (U : list Q) (q : Q) : Prop := exists a, In a U /\ (a == q)%Q.
Lemma climbing_tl a U : climbing (a :: U) -> climbing U.
Proof. intros H i j x y L Hx Hy. apply (H (Datatypes.S i) (Datatypes.S j) x y); auto. lia. Qed.
Lemma climbing_hd a U b : climbing (a :: U) -> In b U -> (a < b)%Q.
Proof. intros H I. apply In_nth_error in I. destruct I as [i Hi]. apply (H 0%nat (Datatypes.S i) a b); auto. lia. Qed.
Lemma climbing_unique : forall U V, climbing U -> climbing V -> (forall q, member U q <-> member V q) -> Forall2 Qeq U V.
Proof.
  induction U as [|a U IH]; intros [|b V] HU HV Hm.
  - constructor.
  - destruct (proj2 (Hm b)) as (x & [] & _). exists b. split; [left; auto|lra].
  - destruct (proj1 (Hm a)) as (x & [] & _). exists a. split; [left; auto|lra].
  - assert (E : (a == b)%Q).
    { destruct (proj1 (Hm a)) as (x & [<-|Ix] & Ex); [exists a; split; [left; auto|lra]|lra|].
      destruct (proj2 (Hm b)) as (y & [<-|Iy] & Ey); [exists b; split; [left; auto|lra]|lra|].
      pose proof (climbing_hd _ _ _ HV Ix). pose proof (climbing_hd _ _ _ HU Iy). lra. }
    constructor; auto. apply IH; [eapply climbing_tl; eauto|eapply climbing_tl; eauto|].
    intro q. split; intros (x & Ix & Ex).
    + destruct (proj1 (Hm q)) as (y & [<-|Iy] & Ey); [exists x; split; [right; auto|auto]| |exists y; auto].
      pose proof (climbing_hd _ _ _ HU Ix). lra.
    + destruct (proj2 (Hm q)) as (y & [<-|Iy] & Ey); [exists x; split; [right; auto|auto]| |exists y; auto].
      pose proof (climbing_hd _ _ _ HV Ix). lra.
Qed.

Lemma order_injective f q r : order_preserving f -> (f q == f r)%Q <-> (q == r)%Q.
Proof.
  intro H. pose proof (H q r). pose proof (H r q). split; intro E.
  - apply Qle_antisym; [apply H0|apply H1]; lra.
  - apply Qle_antisym; [apply H0|apply H1]; lra.
Qed.
Lemma order_strict f q r : order_preserving f -> (q < r)%Q -> (f q < f r)%Q.
Proof. intros H L. apply Qnot_le_lt. intro K. apply (proj1 (H r q)) in K. lra. Qed.

Lemma moved_category f t q : order_preserving f -> category (map (on_values f) t) q <-> exists r, category t r /\ (f r == q)%Q.
Proof.
  intro Hf. split.
  - intros (r & I & E). apply in_map_iff in I. destruct I as (v & Ev & I). destruct v as [x| | |]; try discriminate.
    cbn in Ev. injection Ev as <-. exists x. split; auto. exists x. split; auto. lra.
  - intros (r & (x & I & E) & E'). exists (f x). split.
    + change (Fin (f x)) with (on_values f (Fin x)). apply in_map. auto.
    + apply (order_injective f x r Hf) in E. lra.
Qed.

Lemma numbers_kept f t U U' : order_preserving f -> codes t U -> codes (map (on_values f) t) U' -> Forall2 Qeq (map f U) U'.
Proof.
  intros Hf CU CU'. apply climbing_unique.
  - intros i j a b L Ha Hb. rewrite nth_error_map in Ha, Hb.
    destruct (nth_error U i) as [x|] eqn:Ex; [|discriminate]. destruct (nth_error U j) as [y|] eqn:Ey; [|discriminate].
    cbn in Ha, Hb. injection Ha as <-. injection Hb as <-. apply order_strict; auto.
    apply (co_sorted _ _ CU i j x y L Ex Ey).
  - exact (co_sorted _ _ CU').
  - intro q. change (member U' q) with (exists a, In a U' /\ (a == q)%Q). rewrite (co_members _ _ CU' q).
    rewrite moved_category by auto. split.
    + intros (a & Ia & Ea). apply in_map_iff in Ia. destruct Ia as (x & <- & Ix). exists x. split; auto.
      apply (co_members _ _ CU x). exists x. split; auto. lra.
    + intros (r & Cr & Er). apply (co_members _ _ CU r) in Cr. destruct Cr as (a & Ia & Ea). exists (f a).
      split; [apply in_map; auto|]. apply (order_injective f a r Hf) in Ea. lra.
Qed.

Lemma discrete_bins p n eps tol zw : check_flags_consistency p = FlagsOk -> is_continuous_set p = false ->
  fit_column p n eps tol zw = fit_column p 2 eps tol zw.
Proof.
  intros Hc Hk. rewrite (consistent_kind _ Hc) in Hk. apply negb_false_iff in Hk. unfold fit_column. rewrite Hk. reflexivity.
Qed.

Lemma same_cells f t x U U' g g' : order_preserving f -> codes t U -> codes (map (on_values f) t) U' ->
  numbering t U g -> numbering (map (on_values f) t) U' g' -> (forall v, In v x -> known_or_new f t v) ->
  map g' (map (on_values f) x) = map g x.
Proof.
  intros Hf CU CU' Ng Ng' Hx. pose proof (numbers_kept f t U U' Hf CU CU') as F.
  rewrite map_map. apply map_ext_in. intros v I. specialize (Hx v I). destruct v as [q| | |]; cbn [on_values];
    try (rewrite (nu_missing _ _ _ Ng), (nu_missing _ _ _ Ng') by reflexivity; reflexivity).
  destruct Hx as [K|[K1 K2]].
  - destruct (proj2 (co_members _ _ CU q) K) as (a & Ia & Ea). apply In_nth_error in Ia. destruct Ia as [i Hi].
    rewrite (nu_known _ _ _ Ng i a q Hi Ea).
    assert (Hb : exists b, nth_error U' i = Some b /\ (f a == b)%Q).
    { clear -F Hi. revert U U' F Hi. induction i as [|i IH]; intros [|u U] U' F Hi; try discriminate;
        inversion F as [|x0 y0 l0 l1 Hxy Hr]; subst; cbn [nth_error] in *.
      - injection Hi as ->. exists y0. auto.
      - apply (IH U l1 Hr Hi). }
    destruct Hb as (b & Hb & Eb). apply (nu_known _ _ _ Ng' i b); auto.
    apply (order_injective f a q Hf) in Ea. lra.
  - rewrite (nu_new _ _ _ Ng q K1), (nu_new _ _ _ Ng' _ K2). reflexivity.
Qed.

Lemma known_training f t v : codes_or_missing t -> In v t -> known_or_new f t v.
Proof. intros C I. destruct (C v I) as [-> |[q ->]]; cbn; auto. left. exists q. split; auto. lra. Qed.

(** Any estimator, any groups, any smoothers. *)
Lemma categories_pipe gm bppf erfinv bad k weight prior cfg rate accepted style bins props inplace c f X t :
  categorical_column props c -> order_preserving f -> table X -> column_is X c t -> codes_or_missing t ->
  forall fuel o y e P1 e' P1',
  let fit := pipe_fit gm bppf erfinv bad k weight prior cfg rate accepted style fuel
               {| l_binner := pipeline_binner bins props inplace; l_object := o |} in
  fit X y = (e, P1) -> fit (rescaled c f X) y = (e', P1') ->
  e = e' /\ l_object P1 = l_object P1' /\
  (e = None -> forall Y, table Y -> (forall x v, column_is Y c x -> In v x -> known_or_new f t v) ->
     pipe_predict k weight prior P1' (rescaled c f Y) = pipe_predict k weight prior P1 Y).
Proof.
  intros (p & Hd & Hk & Hm) Hf HX Hin Ht fuel o y e P1 e' P1' fit E1 E2.
  assert (Lo : ones X = map (fun _ => 1%Q) t).
  { unfold ones. destruct HX as [_ HL]. specialize (HL c t Hin).
    apply nth_ext with (d := 1%Q) (d' := 1%Q); rewrite !map_length; [auto|]. intros i Hi.
    assert (Em : forall A (l : list A), nth i (map (fun _ : A => 1%Q) l) 1%Q = 1%Q).
    { intros A l. revert i Hi. intros i _. revert i. induction l as [|a l IH]; intros [|i]; cbn; auto. }
    rewrite !Em. reflexivity. }
  assert (Ht' : codes_or_missing (map (on_values f) t)).
  { intros v I. apply in_map_iff in I. destruct I as (w & <- & I). destruct (Ht w I) as [-> |[q ->]]; cbn; eauto. }
  assert (G : forall x, (forall v, In v x -> known_or_new f t v) -> check_flags_consistency p = FlagsOk -> same_bins bins props inplace c f X p t x).
  { intros x Hx Hc. unfold same_bins. rewrite Lo. rewrite <- combine_moved.
    rewrite !(discrete_bins p (bins c)) by auto.
    change (b_eps (pipeline_binner bins props inplace)) with (1 # 1000000000)%Q.
    destruct (discrete_numbering p 2 (b_tol (pipeline_binner bins props inplace)) t Hc Hk Hm ltac:(lia) Ht) as (_ & U & g & CU & Ng & Tg).
    destruct (discrete_numbering p 2 (b_tol (pipeline_binner bins props inplace)) (map (on_values f) t) Hc Hk Hm ltac:(lia) Ht') as (_ & U' & g' & CU' & Ng' & Tg').
    rewrite map_map in Tg'. cbv zeta in *. rewrite Tg, Tg'. f_equal. apply (same_cells f t x U U'); auto. }
  destruct (pipe_scaled gm bppf erfinv bad k weight prior cfg rate accepted style bins props inplace
              c f X p t Hf Hd HX Hin (G t (fun v => known_training f t v Ht)) _ _ _ _ _ _ _ E1 E2) as (A1 & A2 & A3).
  split; [exact A1|]. split; [exact A2|]. intros He Y HY Hval. apply A3; auto.
  intros x' Hx'. apply G. intros v I. apply (Hval x' v Hx' I).
Qed.
