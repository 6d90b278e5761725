(** Facts about prediction in the form used by the property statements. *)
From Coq Require Import ZArith QArith Qround List Bool Reals Lia Lra.
From Verif.Model Require Import Num LexBins Train Predict.
From Verif.Spec Require Import LexSpec TrainSpec PredictSpec.
From Verif.Proofs Require Import LexFacts TrainFacts TrainHistory TrainBounds TrainExamples PredictFacts NeutralFacts PredictExamples.
Import ListNotations.
Local Open Scope R_scope.

Lemma insample_refuted :
  exists cfg features calc smooth calib rate loss prior fuel st,
    well_shaped 1 features prior /\ one_per_bin features calc calib /\
    fit_main cfg features calc smooth calib rate loss fuel prior = Some (Ok st) /\
    c_aggregate cfg = false /\
    (forall f, In f features -> f_dim f = 1%nat /\ whole_rows (f_rows f)) /\
    nth 0 (p_factors (predict_extended (trained_model features st) prior (training_data features 1))) 0 <>
    nth 0 (p_factors (t_preds st)) 0.
Proof.
  exists (ex_cfg false false false 0 2), [ex_feature false false], n_calc, ex_smooth, ex_id, ex_rate, band_loss, ex_prior, 6%nat, n2.
  split; [apply ex_well_shaped|]. split; [apply n_one_per_bin|]. split; [exact n_run|]. split; [reflexivity|].
  split; [intros f Hf; pose proof Hf as [<-|[]]; split; [reflexivity|apply (ex_whole false false); auto]|].
  rewrite n_predict. cbn. lra.
Qed.

Lemma fractional_refuted :
  exists cfg features calc smooth calib rate loss prior fuel st,
    well_shaped 2 features prior /\ one_per_bin features calc calib /\
    fit_main cfg features calc smooth calib rate loss fuel prior = Some (Ok st) /\
    c_aggregate cfg = true /\ t_diverging st = 0%nat /\
    nth 0 (p_factors (predict_extended (trained_model features st) prior (training_data features 2))) 0 <>
    nth 0 (p_factors (t_preds st)) 0.
Proof.
  exists (ex_cfg true true false 0 1), [q_feature], q_calc, ex_smooth, ex_id, ex_rate, flat_loss, q_prior, 5%nat, q1.
  split; [apply q_well_shaped|]. split; [apply q_one_per_bin|]. split; [exact q_run|]. split; [reflexivity|]. split; [reflexivity|].
  rewrite q_predict. cbn. lra.
Qed.

Lemma ex_c19 :
  fit_main (ex_cfg true true false 0 2) [ex_feature false false] (ex_calc (1/4) (1/8)) ex_smooth ex_id ex_rate flat_loss 6 ex_prior = Some (Ok g2) /\
  well_shaped 1 [ex_feature false false] ex_prior /\ one_per_bin [ex_feature false false] (ex_calc (1/4) (1/8)) ex_id /\
  (forall f, In f [ex_feature false false] -> (1 <= f_dim f)%nat) /\
  (forall f, In f [ex_feature false false] -> f_dim f = 1%nat -> whole_rows (f_rows f)) /\
  predict_extended (trained_model [ex_feature false false] g2) ex_prior (training_data [ex_feature false false] 1) = st_preds (1/2).
Proof.
  split; [exact g_run|]. split; [apply ex_well_shaped|]. split; [apply ex_one_per_bin|]. split; [apply ex_dim|].
  split; [apply ex_whole|apply g_predict].
Qed.

Lemma nth_error_ext {A} (l l' : list A) : length l = length l' ->
  (forall j, (j < length l)%nat -> nth_error l j = nth_error l' j) -> l = l'.
Proof.
  revert l'. induction l as [|x l IH]; intros [|y l'] L H; cbn in L; try discriminate; auto.
  pose proof (H 0%nat ltac:(cbn; lia)) as H0. cbn in H0. injection H0 as ->. f_equal.
  apply IH; [lia|]. intros j Hj. apply (H (S j)). cbn; lia.
Qed.

Lemma predict_rows_eq unlink scale offset ms linked X linked' X' :
  (forall l, linked = Some l -> length l = length X) -> (forall l, linked' = Some l -> length l = length X') ->
  forall j j' x, nth_error X j = Some x -> nth_error X' j' = Some x ->
  prior_of scale offset linked j = prior_of scale offset linked' j' ->
  nth_error (cb_predict unlink scale offset ms linked X) j = nth_error (cb_predict unlink scale offset ms linked' X') j'.
Proof.
  intros H1 H2 j j' x Hj Hj' Hp. destruct (predict_rows unlink scale offset ms linked X H1) as [_ A].
  destruct (predict_rows unlink scale offset ms linked' X' H2) as [_ B]. rewrite (A j x Hj), (B j' x Hj'), Hp. reflexivity.
Qed.

Lemma predict_split_gen unlink scale offset ms linked l1 l2 X1 X2 :
  (forall l, linked = Some l -> length l = length (X1 ++ X2)) ->
  (forall l, l1 = Some l -> length l = length X1) -> (forall l, l2 = Some l -> length l = length X2) ->
  (forall j, (j < length X1)%nat -> prior_of scale offset linked j = prior_of scale offset l1 j) ->
  (forall j, (j < length X2)%nat -> prior_of scale offset linked (length X1 + j) = prior_of scale offset l2 j) ->
  cb_predict unlink scale offset ms linked (X1 ++ X2) =
  cb_predict unlink scale offset ms l1 X1 ++ cb_predict unlink scale offset ms l2 X2.
Proof.
  intros H H1 H2 P1 P2.
  destruct (predict_rows unlink scale offset ms linked (X1 ++ X2) H) as [L _].
  destruct (predict_rows unlink scale offset ms l1 X1 H1) as [L1 _].
  destruct (predict_rows unlink scale offset ms l2 X2 H2) as [L2 _].
  apply nth_error_ext; [rewrite L, !app_length, L1, L2; auto|].
  rewrite L, app_length. intros j Hj. destruct (Nat.ltb_spec j (length X1)) as [Hl|Hl].
  - rewrite (nth_error_app1 (cb_predict unlink scale offset ms l1 X1)) by lia.
    assert (exists x, nth_error X1 j = Some x) as (x & Hx).
    { destruct (nth_error X1 j) eqn:E; eauto. apply nth_error_None in E. lia. }
    apply (predict_rows_eq unlink scale offset ms linked (X1 ++ X2) l1 X1 H H1 j j x); auto.
    rewrite nth_error_app1 by auto. auto.
  - rewrite (nth_error_app2 (cb_predict unlink scale offset ms l1 X1)) by lia. rewrite L1.
    assert (exists x, nth_error X2 (j - length X1) = Some x) as (x & Hx).
    { destruct (nth_error X2 (j - length X1)) eqn:E; eauto. apply nth_error_None in E. lia. }
    apply (predict_rows_eq unlink scale offset ms linked (X1 ++ X2) l2 X2 H H2 j (j - length X1) x); auto.
    + rewrite nth_error_app2 by auto. auto.
    + rewrite <- (P2 (j - length X1)%nat) by lia. f_equal. lia.
Qed.

Lemma predict_split unlink scale offset ms l1 l2 X1 X2 :
  length l1 = length X1 -> length l2 = length X2 ->
  cb_predict unlink scale offset ms (Some (l1 ++ l2)) (X1 ++ X2) =
  cb_predict unlink scale offset ms (Some l1) X1 ++ cb_predict unlink scale offset ms (Some l2) X2 /\
  cb_predict unlink scale offset ms None (X1 ++ X2) =
  cb_predict unlink scale offset ms None X1 ++ cb_predict unlink scale offset ms None X2.
Proof.
  intros H1 H2. split; apply predict_split_gen.
  - intros l E. injection E as <-. rewrite !app_length. lia.
  - intros l E. injection E as <-. auto.
  - intros l E. injection E as <-. auto.
  - intros j Hj. unfold prior_of. rewrite app_nth1 by lia. reflexivity.
  - intros j Hj. unfold prior_of. rewrite app_nth2 by lia. replace (length X1 + j - length l1)%nat with j by lia. reflexivity.
  - discriminate.
  - discriminate.
  - discriminate.
  - reflexivity.
  - reflexivity.
Qed.

Lemma predict_select unlink scale offset ms l X idx d :
  length l = length X -> (forall i, In i idx -> (i < length X)%nat) ->
  cb_predict unlink scale offset ms (Some (map (fun i => nth i l None) idx)) (map (fun i => nth i X d) idx) =
  map (fun i => nth i (cb_predict unlink scale offset ms (Some l) X) 0) idx.
Proof.
  intros Hl Hi.
  assert (H1 : forall l', Some (map (fun i => nth i l None) idx) = Some l' -> length l' = length (map (fun i => nth i X d) idx)).
  { intros l' E. injection E as <-. rewrite !map_length. reflexivity. }
  assert (H2 : forall l', Some l = Some l' -> length l' = length X) by (intros l' E; injection E as <-; auto).
  destruct (predict_rows unlink scale offset ms _ _ H1) as [L1 _].
  destruct (predict_rows unlink scale offset ms _ _ H2) as [L2 _].
  apply nth_error_ext; rewrite L1, map_length; [rewrite map_length; auto|].
  intros j Hj.
  assert (exists i, nth_error idx j = Some i) as (i & Hx).
  { destruct (nth_error idx j) eqn:E; eauto. apply nth_error_None in E. lia. }
  rewrite (nth_error_map _ j idx), Hx. cbn [option_map].
  pose proof (Hi i (nth_error_In _ _ Hx)) as Hlt.
  rewrite <- (nth_error_nth' _ 0) by (rewrite L2; auto).
  apply (predict_rows_eq unlink scale offset ms _ _ _ _ H1 H2 j i (nth i X d)).
  - rewrite nth_error_map, Hx. reflexivity.
  - apply nth_error_nth'. auto.
  - unfold prior_of. rewrite (nth_error_nth _ _ None (x := nth i l None)); [reflexivity|]. rewrite nth_error_map, Hx. reflexivity.
Qed.

Lemma ex_c23 :
  cb_predict exp 1 0 (trained_model [u_feature] u1) None [fun _ => [Fin 2%Q]; fun _ => [NaN]; fun _ => [Fin 0%Q]; fun _ => [Fin 1%Q]; fun _ => [Fin 9%Q]] =
  [exp (1 + 1/8); exp 1; exp (1 + 1/4); exp 1; exp 1].
Proof.
  lazy -[exp Rltb Rleb Reqb clip ln Rplus Rminus Ropp Rmult Rdiv Rinv IZR Rabs]. repeat (f_equal; try lra).
Qed.

Lemma out_of_range_and_missing cfg features calc smooth calib rate loss prior N :
  well_shaped N features prior -> one_per_bin features calc calib ->
  forall fuel st m f s rows j row,
  fit_main cfg features calc smooth calib rate loss fuel prior = Some (Ok st) ->
  nth_error features m = Some f -> (1 <= f_dim f)%nat -> nth_error (t_feats st) m = Some s ->
  nth_error rows j = Some row ->
  (missing_entry row -> nth_error (predict_factors (store f s) rows) j = Some (nth (f_finite f) (learned s) 0)) /\
  (forall t, holds_tuple row t -> length t = f_dim f -> ~ missing_entry row -> ~ valid_tuple (f_nbins f) t ->
    nth_error (predict_factors (store f s) rows) j = Some 0).
Proof.
  intros Hw Ho fuel st m f s rows j row E Hm Hd Hs Hj.
  destruct (prediction_contributes cfg features calc smooth calib rate loss prior N Hw Ho fuel st m f s rows j row E Hm Hd Hs Hj) as (x & Hx & C1 & _ & C3).
  rewrite Hx. split; [intro Hmi; rewrite (C1 Hmi); reflexivity|].
  intros t Hh Ht Hn Hv. f_equal. apply (C3 t); auto. rewrite f_nbins_length; auto.
  destruct Hw as (_ & _ & W). apply W. eapply nth_error_In; eauto.
Qed.

Lemma missing_not_learned_refuted :
  exists cfg features calc smooth calib rate loss prior fuel st f s,
    well_shaped 1 features prior /\ one_per_bin features calc calib /\ (forall v, calib 0%nat v = v) /\
    fit_main cfg features calc smooth calib rate loss fuel prior = Some (Ok st) /\
    nth_error features 0 = Some f /\ f_mnl f = true /\ nth_error (t_feats st) 0 = Some s /\
    nth 0 (predict_factors (store f s) [[NaN]]) 0 <> 0.
Proof.
  exists (ex_cfg true true false 0 2), [ex_feature false true], (ex_calc 12 5), ex_smooth, ex_id, ex_rate, band_loss, ex_prior, 6%nat, w2,
    (ex_feature false true), (hd (init_fstate (ex_feature false true)) (t_feats w2)).
  split; [apply ex_well_shaped|]. split; [apply ex_one_per_bin|]. split; [reflexivity|]. split; [exact w_run|].
  split; [reflexivity|]. split; [reflexivity|]. split; [reflexivity|]. rewrite w_missing. cbn [nth]. apply w_nonzero.
Qed.

Lemma ex_c24 :
  fit_main (ex_cfg true true false 0 1) [u_feature] u_calc u_smooth ex_id ex_rate flat_loss 5 q_prior = Some (Ok u1) /\
  well_shaped 2 [u_feature] q_prior /\ one_per_bin [u_feature] u_calc ex_id /\
  valid_tuple (f_nbins u_feature) [1%Z] /\ ~ occurs u_feature [1%Q; 1%Q] [1%Z] /\ occurs u_feature [1%Q; 1%Q] [2%Z] /\
  f_mnl u_feature = true /\ missing_entry [NaN].
Proof.
  split; [exact u_run|]. split; [apply u_well_shaped|]. split; [apply u_one_per_bin|]. split; [apply u_valid|].
  split; [apply u_not_occurs|]. split; [|split; [reflexivity|apply nan_missing]].
  exists 1%nat, [Fin 2%Q], 1%Q. split; [reflexivity|]. split; [reflexivity|]. split; [discriminate|]. split; [|reflexivity].
  intros (x & [<-|[]] & [H|H]); cbn in H; discriminate.
Qed.
