(** Facts about trainings that fail. *)
From Coq Require Import ZArith QArith List Bool Reals Lia Lra.
From Verif.Model Require Import Num LexBins Train Predict FailedFit.
From Verif.Spec Require Import FailedFitSpec.
From Verif.Proofs Require Import TrainFacts PredictFacts TrainExamples.
Import ListNotations.
Local Open Scope R_scope.

Definition holds (h : held) : Prop := match h with Holds _ => True | _ => False end.

(** ** Predicting *)
Lemma held_from_some hs : forall i p X, Forall holds (map snd hs) -> exists q, held_from i hs p X = Some q.
Proof.
  induction hs as [|[e h] hs IH]; intros i p X F; cbn [held_from]; [eauto|].
  cbn in F. inversion F as [|? ? Hh Hr]; subst. destruct h; try contradiction. cbn [held_predict]. apply IH. auto.
Qed.
Lemma held_from_stuck hs : forall i p X j e h, nth_error hs j = Some (e, h) ->
  held_predict h (map (fun x : datarow => x (i + j)%nat) X) = None -> held_from i hs p X = None.
Proof.
  induction hs as [|[e0 h0] hs IH]; intros i p X j e h N E; [destruct j; discriminate|].
  cbn [held_from]. destruct j as [|j]; cbn in N.
  - injection N as -> ->. rewrite Nat.add_0_r in E. unfold datarow in *. rewrite E. reflexivity.
  - destruct (held_predict h0 _); [|reflexivity]. eapply IH; [exact N|]. rewrite <- E. f_equal. apply map_ext. intro. f_equal. lia.
Qed.
Lemma combine_map_snd {A B C} (f : A -> B) (l : list A) (m : list C) : length l = length m -> map snd (combine (map f l) m) = m.
Proof. revert m. induction l as [|a l IH]; intros [|c m] L; cbn in *; try lia; auto. f_equal. apply IH. lia. Qed.
Lemma nth_error_combine {A B} (a : list A) : forall (b : list B) j x y, nth_error a j = Some x -> nth_error b j = Some y ->
  nth_error (combine a b) j = Some (x, y).
Proof. induction a as [|a0 a IH]; intros [|b0 b] [|j] x y; cbn; try discriminate; auto. congruence. Qed.

Section Runs.
Variable cfg : settings.
Variable features : list feature.
Variable calc : nat -> nat -> preds -> list R.
Variable smooth_at : nat -> nat -> preds -> list R -> list fnum -> option R.
Variable calib : nat -> list R -> list R.
Variable rate : nat -> nat -> R.
Variable loss : preds -> R.
Local Notation sm := (smooth features smooth_at).
Local Notation pass := (features_pass cfg calc sm calib rate loss).
Local Notation hpass := (pass_held cfg features calc smooth_at calib rate loss).
Local Notation run := (loop cfg features calc sm calib rate loss).
Local Notation hrun := (loop_held cfg features calc smooth_at calib rate loss).
Local Notation again := (refit cfg features calc smooth_at calib rate loss).

(** Without a failure the pass is the one of the training. *)
Lemma pass_held_pass fl : forall i sl hl it p d k i0, length fl = length sl -> length fl = length hl ->
  snd (hpass i fl sl hl it p d k i0 None) = Some (pass i fl sl it p d k i0).
Proof.
  induction fl as [|f fl IH]; intros i [|s sl] [|h hl] it p d k i0 L1 L2; cbn in L1, L2; try lia; cbn [pass_held features_pass]; auto.
  destruct (skipped cfg f it).
  - specialize (IH (S i) sl hl it p d k i0 ltac:(lia) ltac:(lia)). destruct (hpass (S i) fl sl hl it p d k i0 None) as [r o]. cbn in *. subst o.
    cbn. destruct (pass (S i) fl sl it p d k i0) as [[r' q]|e]; reflexivity.
  - destruct (feature_iteration _ _ _ _ _ _ _ _ _ _ _ _ _ _) as [[s' p']|e]; cbn; auto.
    specialize (IH (S i) sl hl it p' d k i0 ltac:(lia) ltac:(lia)). destruct (hpass (S i) fl sl hl it p' d k i0 None) as [r o]. cbn in *. subst o.
    cbn. destruct (pass (S i) fl sl it p' d k i0) as [[r' q]|e]; reflexivity.
Qed.
Lemma pass_held_length fl : forall i sl hl it p d k i0 stop, length fl = length sl -> length fl = length hl ->
  length (fst (hpass i fl sl hl it p d k i0 stop)) = length fl.
Proof.
  induction fl as [|f fl IH]; intros i [|s sl] [|h hl] it p d k i0 stop L1 L2; cbn in L1, L2; try lia; cbn [pass_held]; auto.
  destruct (skipped cfg f it).
  - specialize (IH (S i) sl hl it p d k i0 stop ltac:(lia) ltac:(lia)). destruct (hpass (S i) fl sl hl it p d k i0 stop) as [r o]. cbn in *. lia.
  - destruct (match stop with Some j => Nat.eqb i j | None => false end); [cbn; lia|].
    destruct (feature_iteration _ _ _ _ _ _ _ _ _ _ _ _ _ _) as [[s' p']|e]; [|cbn; lia].
    specialize (IH (S i) sl hl it p' d k i0 stop ltac:(lia) ltac:(lia)). destruct (hpass (S i) fl sl hl it p' d k i0 stop) as [r o]. cbn in *. lia.
Qed.
Lemma pass_length fl : forall i sl it p d k i0 sl' p', length fl = length sl ->
  pass i fl sl it p d k i0 = Ok (sl', p') -> length sl' = length fl.
Proof.
  induction fl as [|f fl IH]; intros i [|s sl] it p d k i0 sl' p' L E; cbn in L; try lia; cbn [features_pass] in E.
  - injection E as <- <-. reflexivity.
  - destruct (if skipped cfg f it then _ else _) as [[s1 p1]|e]; [|discriminate].
    destruct (pass (S i) fl sl it p1 d k i0) as [[r q]|e] eqn:P; [|discriminate]. injection E as <- <-. cbn. f_equal. eapply IH; [|exact P]. lia.
Qed.
Lemma remove_length fl : forall sl p sl' p', length fl = length sl -> remove_preds fl sl p = Ok (sl', p') -> length sl' = length fl.
Proof.
  induction fl as [|f fl IH]; intros [|s sl] p sl' p' L E; cbn in L; try lia; cbn [remove_preds] in E.
  - injection E as <- <-. reflexivity.
  - destruct (s_agg s); [|discriminate]. destruct (remove_preds fl sl _) as [[r q]|e] eqn:P; [|discriminate]. injection E as <- <-. cbn. f_equal. eapply IH; [|exact P]. lia.
Qed.
Lemma iteration_feats i0 st st' : length features = length (t_feats st) -> iteration cfg features calc sm calib rate loss i0 st = Ok st' ->
  length features = length (t_feats st').
Proof.
  intros L E. unfold iteration in E.
  destruct (pass 0%nat features (t_feats st) _ _ _ _ _) as [[sl p]|e] eqn:P; [|discriminate].
  apply pass_length in P; auto. destruct (_ && _); [discriminate|].
  destruct (is_diverged i0 (loss p)).
  - destruct (remove_preds features sl p) as [[sl' p']|e] eqn:R; [|discriminate]. injection E as <-. cbn. apply remove_length in R; lia.
  - injection E as <-. cbn. lia.
Qed.

(** ** A training without an injected failure *)
Lemma prepare_all fl : forall sl hl, length fl = length sl -> length fl = length hl ->
  forallb (fun s => match s_agg s with Some _ => true | None => false end) sl = true ->
  prepare fl sl hl = map2 prepared fl sl.
Proof.
  induction fl as [|f fl IH]; intros [|s sl] [|h hl] L1 L2 A; cbn in L1, L2; try lia; auto.
  cbn in A. cbn [prepare map2]. destruct (s_agg s); [|discriminate]. f_equal. apply IH; auto; lia.
Qed.
Lemma hrun_ok fuel : forall i0 st hl, length features = length (t_feats st) -> length features = length hl ->
  match run fuel i0 st with
  | None => hrun fuel i0 st hl None = None
  | Some (Raise _) => exists hl', hrun fuel i0 st hl None = Some (hl', false)
  | Some (Ok g) => hrun fuel i0 st hl None = Some (map2 prepared features (t_feats g), true)
  end.
Proof.
  induction fuel as [|fuel IH]; intros i0 st hl L1 L2; cbn [loop loop_held].
  - destruct (continues cfg st); [reflexivity|]. unfold finish. destruct (forallb _ _) eqn:F.
    + destruct (_ && _); [eauto|]. rewrite prepare_all; auto.
    + eauto.
  - destruct (continues cfg st).
    + pose proof (pass_held_pass features 0%nat (t_feats st) hl (t_iter st) (t_preds st) (t_isdiv st) (t_diverging st) i0 L1 L2) as P.
      pose proof (pass_held_length features 0%nat (t_feats st) hl (t_iter st) (t_preds st) (t_isdiv st) (t_diverging st) i0 None L1 L2) as PL.
      destruct (hpass _ _ _ _ _ _ _ _ _ _) as [hl' o]. cbn in P, PL. subst o.
      destruct (iteration cfg features calc sm calib rate loss i0 st) as [st'|e] eqn:E.
      * apply IH; [|lia]. eapply iteration_feats; eauto.
      * eauto.
    + unfold finish. destruct (forallb _ _) eqn:F.
      * destruct (_ && _); [eauto|]. rewrite prepare_all; auto.
      * eauto.
Qed.
Lemma held_prepared fl : forall sl i p X, length fl = length sl ->
  held_from i (combine (map f_ext fl) (map2 prepared fl sl)) p X = Some (predict_from i (map2 store fl sl) p X).
Proof.
  induction fl as [|f fl IH]; intros [|s sl] i p X L; cbn in L; try lia; [reflexivity|].
  cbn [map map2 combine held_from predict_from prepared held_predict]. rewrite IH by lia. do 2 f_equal.
  cbn [store m_ext]. f_equal. rewrite predict_factors_rowpred. apply map_ext. intro row. rewrite predict_factors_rowpred. reflexivity.
Qed.
Lemma init_feats p : length features = length (t_feats (init_state features loss p)).
Proof. cbn. rewrite map_length. reflexivity. Qed.
Lemma run_feats fuel : forall i0 st g, length features = length (t_feats st) -> run fuel i0 st = Some (Ok g) -> length features = length (t_feats g).
Proof.
  induction fuel as [|fuel IH]; intros i0 st g L E; cbn [loop] in E; destruct (continues cfg st); try discriminate.
  - unfold finish in E. destruct (forallb _ _); [destruct (_ && _)|]; congruence.
  - destruct (iteration _ _ _ _ _ _ _ _ _) as [st'|e] eqn:I; [|discriminate]. eapply IH; [|exact E]. eapply iteration_feats; eauto.
  - unfold finish in E. destruct (forallb _ _); [destruct (_ && _)|]; congruence.
Qed.

(** A training that succeeds leaves the trained model. *)
Lemma refit_trained old start fuel p g : fit_main cfg features calc sm calib rate loss fuel p = Some (Ok g) ->
  exists ob, again old start fuel p None = Some (ob, true) /\
    forall X, predict_object ob X = Some (predict_extended (map2 store features (t_feats g)) (start X) X).
Proof.
  intro E. unfold fit_main in E. unfold refit.
  pose proof (hrun_ok fuel (loss p) (init_state features loss p) (map (fun _ => Unfitted) features) (init_feats p)) as H.
  rewrite E in H. rewrite H by (rewrite map_length; reflexivity). eexists; split; [reflexivity|].
  intro X. unfold predict_object. cbn. apply held_prepared. eapply run_feats; [|exact E]. apply init_feats.
Qed.
(** A training that raises is reported as failed. *)
Lemma refit_raised old start fuel p e : fit_main cfg features calc sm calib rate loss fuel p = Some (Raise e) ->
  exists ob, again old start fuel p None = Some (ob, false).
Proof.
  intro E. unfold fit_main in E. unfold refit.
  pose proof (hrun_ok fuel (loss p) (init_state features loss p) (map (fun _ => Unfitted) features) (init_feats p)) as H.
  rewrite E in H. destruct H as (hl' & H); [rewrite map_length; reflexivity|]. rewrite H. eauto.
Qed.

(** ** Failures before the first feature *)
Lemma safe_old old : fails_safely old old.
Proof. intro X. auto. Qed.
Lemma fresh_refuses start f fl : refuses {| o_start := start; o_held := combine (map f_ext (f :: fl)) (map (fun _ => Unfitted) (f :: fl)) |}.
Proof. intro X. reflexivity. Qed.

(** ** Failures in the first pass *)
Lemma limit_calm f s u fs p k i0 : exists fs' z, limit_factors cfg loss f s u fs p false k i0 = Ok (fs', z).
Proof. unfold limit_factors. destruct (_ && _); eauto. Qed.
Lemma iteration_calm i f s it p k i0 : exists s' p', feature_iteration cfg calc sm calib rate loss i f s it p false k i0 = Ok (s', p').
Proof.
  unfold feature_iteration. destruct (new_factors _ _ _ _ _ _ _ _ _) as [u fs]. unfold visit_factors.
  destruct (limit_calm f s u fs (if c_aggregate cfg then p else sub_preds (f_ext f) p (gather (s_factors s) (f_lex f))) k i0) as (fs' & z & E).
  rewrite E. eauto.
Qed.
Lemma first_pass_stops fl : forall i sl j f it p k i0, length fl = length sl -> nth_error fl j = Some f -> skipped cfg f it = false ->
  exists hl, hpass i fl sl (map (fun _ => Unfitted) fl) it p false k i0 (Some (i + j)%nat) = (hl, None) /\
    nth_error hl j = Some Bound /\ (forall m g, (j < m)%nat -> nth_error fl m = Some g -> nth_error hl m = Some Unfitted).
Proof.
  induction fl as [|g fl IH]; intros i [|s sl] j f it p k i0 L N S; cbn in L; try lia; [destruct j; discriminate|].
  cbn [map pass_held]. destruct j as [|j].
  - injection N as ->. rewrite S, Nat.add_0_r, Nat.eqb_refl. eexists; split; [reflexivity|]. split; [reflexivity|].
    intros [|m] h Lm Nm; [lia|]. cbn in *. rewrite nth_error_map, Nm. reflexivity.
  - cbn in N. replace (i + Datatypes.S j)%nat with (Datatypes.S i + j)%nat by lia.
    destruct (skipped cfg g it) eqn:Sg.
    + destruct (IH (Datatypes.S i) sl j f it p k i0 ltac:(lia) N S) as (hl & E & B & U). rewrite E. eexists; split; [reflexivity|]. split; [exact B|].
      intros [|m] h Lm Nm; [lia|]. apply (U m h); [lia|exact Nm].
    + replace (Nat.eqb i (Datatypes.S i + j)) with false by (symmetry; apply Nat.eqb_neq; lia).
      destruct (iteration_calm i g s it p k i0) as (s' & p' & E'). rewrite E'.
      destruct (IH (Datatypes.S i) sl j f it p' k i0 ltac:(lia) N S) as (hl & E & B & U). rewrite E. eexists; split; [reflexivity|]. split; [exact B|].
      intros [|m] h Lm Nm; [lia|]. apply (U m h); [lia|exact Nm].
Qed.
Lemma first_failure old start fuel p i f : (0 < fuel)%nat -> continues cfg (init_state features loss p) = true ->
  nth_error features i = Some f -> skipped cfg f 0 = false ->
  exists ob, again old start fuel p (Some (InCalc 0 i)) = Some (ob, false) /\
    (S i < length features -> refuses ob)%nat /\
    (forall X x, In x X -> row_finite_semi_positive (x i) = true -> predict_object ob X = None).
Proof.
  intros F C N S. unfold refit. destruct fuel as [|fuel]; [lia|]. cbn [loop_held]. rewrite C. cbn [init_state t_iter t_feats t_preds t_isdiv t_diverging Nat.eqb].
  destruct (first_pass_stops features 0%nat (map init_fstate features) i f 0%nat p 0%nat (loss p) ltac:(rewrite map_length; reflexivity) N S) as (hl & E & B & U).
  cbn [Nat.add] in E. rewrite E. eexists; split; [reflexivity|]. split.
  - intros L X. unfold predict_object. cbn [o_held o_start].
    destruct (nth_error features (Datatypes.S i)) as [g|] eqn:G; [|apply nth_error_None in G; lia].
    eapply (held_from_stuck _ 0%nat _ _ (Datatypes.S i) (f_ext g) Unfitted); [|reflexivity].
    apply nth_error_combine; [rewrite nth_error_map, G; reflexivity|]. apply (U _ g); auto.
  - intros X x Ix Fx. unfold predict_object. cbn [o_held o_start].
    eapply (held_from_stuck _ 0%nat _ _ i (f_ext f) Bound); [apply nth_error_combine; [rewrite nth_error_map, N; reflexivity|exact B]|].
    cbn [held_predict Nat.add]. replace (existsb _ _) with true; [reflexivity|]. symmetry. apply existsb_exists.
    exists (x i). split; auto. apply in_map_iff. exists x. auto.
Qed.

(** ** Failures after the first pass *)
Hypothesis flat : c_hier cfg = false.
Lemma not_skipped f it : skipped cfg f it = false.
Proof. unfold skipped. rewrite flat. reflexivity. Qed.
Lemma pass_holds fl : forall i sl hl it p d k i0 stop, Forall holds hl -> Forall holds (fst (hpass i fl sl hl it p d k i0 stop)).
Proof.
  induction fl as [|f fl IH]; intros i [|s sl] [|h hl] it p d k i0 stop F; cbn [pass_held fst]; auto.
  rewrite not_skipped. inversion F as [|? ? Hh Hr]; subst.
  destruct (match stop with Some j => Nat.eqb i j | None => false end).
  - cbn. constructor; auto. destruct h; try contradiction. exact I.
  - destruct (feature_iteration _ _ _ _ _ _ _ _ _ _ _ _ _ _) as [[s' p']|e]; [|cbn; constructor; [exact I|exact Hr]].
    specialize (IH (S i) sl hl it p' d k i0 stop Hr). destruct (hpass (S i) fl sl hl it p' d k i0 stop). cbn in *. constructor; [exact I|exact IH].
Qed.
Lemma full_pass_holds fl : forall i sl hl it p k i0, length fl = length sl -> length fl = length hl ->
  Forall holds (fst (hpass i fl sl hl it p false k i0 None)).
Proof.
  induction fl as [|f fl IH]; intros i [|s sl] [|h hl] it p k i0 L1 L2; cbn in L1, L2; try lia; cbn [pass_held fst]; auto.
  rewrite not_skipped. destruct (iteration_calm i f s it p k i0) as (s' & p' & E). rewrite E.
  specialize (IH (S i) sl hl it p' k i0 ltac:(lia) ltac:(lia)). destruct (hpass (S i) fl sl hl it p' false k i0 None). cbn in *. constructor; [exact I|exact IH].
Qed.
Definition aggregated (s : fstate) : Prop := exists a, s_agg s = Some a.
Lemma pass_aggregated fl : forall i sl it p d k i0 sl' p', pass i fl sl it p d k i0 = Ok (sl', p') -> Forall aggregated sl'.
Proof.
  induction fl as [|f fl IH]; intros i [|s sl] it p d k i0 sl' p' E; cbn [features_pass] in E; try (injection E as <- <-; constructor).
  rewrite not_skipped in E. destruct (feature_iteration _ _ _ _ _ _ _ _ _ _ _ _ _ _) as [[s1 p1]|e] eqn:V; [|discriminate].
  destruct (pass (S i) fl sl it p1 d k i0) as [[r q]|e] eqn:P; [|discriminate]. injection E as <- <-. constructor; [|eapply IH; exact P].
  unfold feature_iteration in V. destruct (new_factors _ _ _ _ _ _ _ _ _) as [u fs]. unfold visit_factors in V.
  destruct (limit_factors _ _ _ _ _ _ _ _ _ _) as [[fs' z]|e]; [|discriminate]. injection V as <- _. eexists. reflexivity.
Qed.
Lemma remove_aggregated fl : forall sl p sl' p', remove_preds fl sl p = Ok (sl', p') -> Forall aggregated sl'.
Proof.
  induction fl as [|f fl IH]; intros [|s sl] p sl' p' E; cbn [remove_preds] in E; try (injection E as <- <-; constructor).
  destruct (s_agg s); [|discriminate]. destruct (remove_preds fl sl _) as [[r q]|e] eqn:P; [|discriminate]. injection E as <- <-.
  constructor; [eexists; reflexivity|]. eapply IH. exact P.
Qed.
Lemma iteration_aggregated i0 st st' : iteration cfg features calc sm calib rate loss i0 st = Ok st' -> Forall aggregated (t_feats st').
Proof.
  intro E. unfold iteration in E. destruct (pass 0%nat features (t_feats st) _ _ _ _ _) as [[sl p]|e] eqn:P; [|discriminate].
  apply pass_aggregated in P. destruct (_ && _); [discriminate|]. destruct (is_diverged i0 (loss p)).
  - destruct (remove_preds features sl p) as [[sl' p']|e] eqn:R; [|discriminate]. injection E as <-. eapply remove_aggregated. exact R.
  - injection E as <-. exact P.
Qed.
Lemma prepare_holds fl : forall sl hl, Forall aggregated sl -> Forall holds (prepare fl sl hl).
Proof.
  induction fl as [|f fl IH]; intros [|s sl] [|h hl] A; cbn [prepare]; auto. inversion A as [|? ? [a Ea] Ar]; subst.
  rewrite Ea. constructor; [exact I|]. auto.
Qed.
Lemma prepare_length fl : forall sl hl, length fl = length sl -> length fl = length hl -> length (prepare fl sl hl) = length fl.
Proof.
  induction fl as [|f fl IH]; intros [|s sl] [|h hl] L1 L2; cbn in L1, L2; try lia; cbn [prepare]; auto.
  destruct (s_agg s); cbn; [f_equal; apply IH; lia|lia].
Qed.
Lemma hrun_holds fuel : forall i0 st hl stop hl' ok, length features = length (t_feats st) -> length features = length hl ->
  Forall holds hl -> Forall aggregated (t_feats st) -> hrun fuel i0 st hl stop = Some (hl', ok) ->
  length hl' = length features /\ Forall holds hl'.
Proof.
  induction fuel as [|fuel IH]; intros i0 st hl stop hl' ok L1 L2 F A E; cbn [loop_held] in E; destruct (continues cfg st); try discriminate.
  - injection E as <- _. split; [apply prepare_length; auto|apply prepare_holds; auto].
  - revert E. set (here := match stop with Some (it, j) => if Nat.eqb it (t_iter st) then Some j else None | None => None end). intro E.
    pose proof (pass_holds features 0%nat (t_feats st) hl (t_iter st) (t_preds st) (t_isdiv st) (t_diverging st) i0 here F) as PF.
    pose proof (pass_held_length features 0%nat (t_feats st) hl (t_iter st) (t_preds st) (t_isdiv st) (t_diverging st) i0 here L1 L2) as PL.
    destruct (hpass _ _ _ _ _ _ _ _ _ _) as [h1 o]. cbn in PF, PL. destruct o.
    + destruct (iteration _ _ _ _ _ _ _ _ _) as [st'|e] eqn:I.
      * eapply (IH i0 st' h1); eauto. { eapply iteration_feats; eauto. } { eapply iteration_aggregated; eauto. }
      * injection E as <- _. auto.
    + injection E as <- _. auto.
  - injection E as <- _. split; [apply prepare_length; auto|apply prepare_holds; auto].
Qed.
Lemma late_failure old start fuel p flt ob ok : continues cfg (init_state features loss p) = true ->
  flt = None \/ (exists it i, flt = Some (InCalc (S it) i)) ->
  again old start fuel p flt = Some (ob, ok) -> answers ob.
Proof.
  intros C D E X. unfold refit in E.
  set (stop := match flt with Some (InCalc it i) => Some (it, i) | _ => None end) in E.
  assert (E' : exists hl, hrun fuel (loss p) (init_state features loss p) (map (fun _ => Unfitted) features) stop = Some (hl, ok) /\
                ob = {| o_start := start; o_held := combine (map f_ext features) hl |}).
  { destruct D as [->|(it & i & ->)]; cbn in stop; unfold stop;
      destruct (hrun _ _ _ _ _) as [[hl b]|] eqn:H; cbn in E; try discriminate; injection E as <- <-; eauto. }
  destruct E' as (hl & H & ->). clear E. unfold predict_object. cbn [o_held o_start].
  assert (K : length hl = length features /\ Forall holds hl).
  { destruct fuel as [|fuel]; cbn [loop_held] in H; rewrite C in H; [discriminate|].
    assert (SN : match stop with Some (it, j) => if Nat.eqb it (t_iter (init_state features loss p)) then Some j else None | None => None end = None).
    { destruct D as [->|(it & i & ->)]; reflexivity. }
    rewrite SN in H. cbn [init_state t_iter t_feats t_preds t_isdiv t_diverging] in H.
    pose proof (full_pass_holds features 0%nat (map init_fstate features) (map (fun _ => Unfitted) features) 0%nat p 0%nat (loss p)
                  ltac:(rewrite map_length; reflexivity) ltac:(rewrite map_length; reflexivity)) as PF.
    pose proof (pass_held_length features 0%nat (map init_fstate features) (map (fun _ => Unfitted) features) 0%nat p false 0%nat (loss p) None
                  ltac:(rewrite map_length; reflexivity) ltac:(rewrite map_length; reflexivity)) as PL.
    destruct (hpass _ _ _ _ _ _ _ _ _ _) as [h1 o]. cbn in PF, PL. destruct o.
    - destruct (iteration _ _ _ _ _ _ _ _ _) as [st'|e] eqn:I.
      + eapply (hrun_holds fuel (loss p) st' h1); eauto.
        * eapply iteration_feats; [|exact I]. apply init_feats.
        * eapply iteration_aggregated; eauto.
      + injection H as <- _. auto.
    - injection H as <- _. auto. }
  destruct K as [KL KF]. apply held_from_some. rewrite combine_map_snd; auto.
Qed.
End Runs.

(** ** Five divergences: the model after the failed training *)
Definition one_smooth (_ _ : nat) (_ : preds) (v : list R) (_ : list fnum) : option R := Some (hd 0 v).
Definition flat_start (x : R) (X : list datarow) : preds := {| p_factors := map (fun _ => x) X; p_exponents := map (fun _ => 0) X |}.
Definition former : object := {| o_start := flat_start 0; o_held := [(false, Holds (fun _ => 1))] |}.
Definition one_row : list datarow := [fun _ => [Fin 0%Q]].
Lemma one_smooth_is : smooth gfeats one_smooth 0 = fun it p v _ => Some (hd 0 v).
Proof. reflexivity. Qed.
Lemma diverged_run : fit_main bcfg gfeats small_calc (smooth gfeats one_smooth) ex_id ex_rate bad_loss 13 ex_prior = Some (Raise ConvergenceError).
Proof.
  unfold fit_main. rewrite bad_prior.
  rewrite (loop_step _ _ _ _ _ _ _ _ _ _ (b_st 1 0 3 (-2) (1/16))); [|evals; reflexivity|evals; match_up].
  rewrite (loop_step _ _ _ _ _ _ _ _ _ _ (b_st 2 (1/8) 3 0 0)); [|evals; reflexivity|evals; match_up].
  rewrite (loop_step _ _ _ _ _ _ _ _ _ _ (b_st 3 (1/8) 3 0 0)); [|evals; reflexivity|evals; match_up].
  rewrite (loop_step _ _ _ _ _ _ _ _ _ _ (b_st 4 (1/8) 3 0 0)); [|evals; reflexivity|evals; match_up].
  apply loop_raise; evals; reflexivity.
Qed.
Section Steps.
Variable cfg : settings.
Variable features : list feature.
Variable calc : nat -> nat -> preds -> list R.
Variable smooth_at : nat -> nat -> preds -> list R -> list fnum -> option R.
Variable calib : nat -> list R -> list R.
Variable rate : nat -> nat -> R.
Variable loss : preds -> R.
Definition after_pass (i0 : R) (st : state) (hl : list held) : list held :=
  fst (pass_held cfg features calc smooth_at calib rate loss 0 features (t_feats st) hl (t_iter st) (t_preds st) (t_isdiv st) (t_diverging st) i0 None).
Lemma hloop_step k i0 st st' hl : length features = length (t_feats st) -> length features = length hl ->
  continues cfg st = true -> iteration cfg features calc (smooth features smooth_at) calib rate loss i0 st = Ok st' ->
  loop_held cfg features calc smooth_at calib rate loss (S k) i0 st hl None =
  loop_held cfg features calc smooth_at calib rate loss k i0 st' (after_pass i0 st hl) None.
Proof.
  intros L1 L2 C E. unfold after_pass. cbn [loop_held]. rewrite C, E.
  pose proof (pass_held_pass cfg features calc smooth_at calib rate loss features 0%nat (t_feats st) hl (t_iter st) (t_preds st) (t_isdiv st) (t_diverging st) i0 L1 L2) as P.
  destruct (pass_held _ _ _ _ _ _ _ _ _ _ _ _ _ _ _ _ _) as [h1 o]. cbn in P. subst o. reflexivity.
Qed.
Lemma hloop_raise k i0 st e hl : length features = length (t_feats st) -> length features = length hl ->
  continues cfg st = true -> iteration cfg features calc (smooth features smooth_at) calib rate loss i0 st = Raise e ->
  loop_held cfg features calc smooth_at calib rate loss (S k) i0 st hl None = Some (after_pass i0 st hl, false).
Proof.
  intros L1 L2 C E. unfold after_pass. cbn [loop_held]. rewrite C, E.
  pose proof (pass_held_pass cfg features calc smooth_at calib rate loss features 0%nat (t_feats st) hl (t_iter st) (t_preds st) (t_isdiv st) (t_diverging st) i0 L1 L2) as P.
  destruct (pass_held _ _ _ _ _ _ _ _ _ _ _ _ _ _ _ _ _) as [h1 o]. cbn in P. subst o. reflexivity.
Qed.
End Steps.

Lemma diverged_object old start : exists ob,
  refit bcfg gfeats small_calc one_smooth ex_id ex_rate bad_loss old start 13 ex_prior None = Some (ob, false) /\
  forall X, predict_object ob X = Some (add_preds false (start X) (map (fun x : datarow => if row_finite_semi_positive (x 0%nat) then 1/8 else 0) X)).
Proof.
  unfold refit. rewrite bad_prior.
  rewrite (hloop_step _ _ _ _ _ _ _ _ _ _ (b_st 1 0 3 (-2) (1/16))); [|reflexivity|reflexivity|evals; reflexivity|evals; match_up].
  rewrite (hloop_step _ _ _ _ _ _ _ _ _ _ (b_st 2 (1/8) 3 0 0)); [|reflexivity|reflexivity|evals; reflexivity|evals; match_up].
  rewrite (hloop_step _ _ _ _ _ _ _ _ _ _ (b_st 3 (1/8) 3 0 0)); [|reflexivity|reflexivity|evals; reflexivity|evals; match_up].
  rewrite (hloop_step _ _ _ _ _ _ _ _ _ _ (b_st 4 (1/8) 3 0 0)); [|reflexivity|reflexivity|evals; reflexivity|evals; match_up].
  rewrite (hloop_raise _ _ _ _ _ _ _ _ _ _ ConvergenceError); [|reflexivity|reflexivity|evals; reflexivity|evals; reflexivity].
  eexists. split; [reflexivity|]. intro X. unfold predict_object, after_pass. cbn -[row_finite_semi_positive f_finite].
  unfold add_preds. do 2 f_equal. f_equal. rewrite map_map. apply map_ext. intro x. destruct (row_finite_semi_positive (x 0%nat)).
  - assert (F : f_finite (ex_feature false false) = 1%nat) by reflexivity. rewrite F. cbn. unfold ex_rate. lra.
  - assert (F : f_finite (ex_feature false false) = 1%nat) by reflexivity. rewrite F. cbn. unfold ex_rate. lra.
Qed.

(** ** Statements of the properties *)
Lemma early_failure : forall cfg features calc smooth_at calib rate loss old start fuel p,
  let again := refit cfg features calc smooth_at calib rate loss old start fuel p in
  again (Some InChecks) = Some (old, false) /\ again (Some InFeatures) = Some (old, false) /\
  (features <> [] -> exists ob, again (Some InScale) = Some (ob, false) /\ refuses ob /\ fails_safely old ob).
Proof.
  intros. split; [reflexivity|]. split; [reflexivity|]. intro N. eexists. split; [reflexivity|].
  destruct features as [|f fl]; [congruence|]. split; [apply fresh_refuses|]. intro X. left. apply fresh_refuses.
Qed.
Lemma success_or_failure : forall cfg features calc smooth_at calib rate loss old start fuel p,
  let sm := smooth features smooth_at in
  let again := refit cfg features calc smooth_at calib rate loss old start fuel p None in
  (forall g, fit_main cfg features calc sm calib rate loss fuel p = Some (Ok g) ->
     exists ob, again = Some (ob, true) /\
       forall X, predict_object ob X = Some (predict_extended (map2 store features (t_feats g)) (start X) X)) /\
  (forall e, fit_main cfg features calc sm calib rate loss fuel p = Some (Raise e) -> exists ob, again = Some (ob, false)).
Proof. intros. split; intros; [eapply refit_trained; eauto|eapply refit_raised; eauto]. Qed.
Lemma first_failure_example : exists ob,
  refit gcfg [ex_feature false false; ex_feature false false] small_calc one_smooth ex_id ex_rate flat_loss former (flat_start 0) 3
    ex_prior (Some (InCalc 0 0)) = Some (ob, false) /\ refuses ob.
Proof.
  destruct (first_failure gcfg [ex_feature false false; ex_feature false false] small_calc one_smooth ex_id ex_rate flat_loss former (flat_start 0) 3
    ex_prior 0 (ex_feature false false)) as (ob & E & R & _); [auto|evals; reflexivity|reflexivity|reflexivity|].
  exists ob. split; [exact E|]. apply R. auto.
Qed.
Lemma diverged_witness : exists ob,
  refit bcfg gfeats small_calc one_smooth ex_id ex_rate bad_loss former (flat_start 0) 13 ex_prior None = Some (ob, false) /\
  fit_main bcfg gfeats small_calc (smooth gfeats one_smooth) ex_id ex_rate bad_loss 13 ex_prior = Some (Raise ConvergenceError) /\
  predict_object former one_row = Some {| p_factors := [0 + 1]; p_exponents := [0] |} /\
  predict_object ob one_row = Some {| p_factors := [0 + 1/8]; p_exponents := [0] |} /\
  ~ fails_safely former ob.
Proof.
  destruct (diverged_object former (flat_start 0)) as (ob & E & P). exists ob. split; [exact E|]. split; [exact diverged_run|].
  split; [reflexivity|]. split; [rewrite P; reflexivity|].
  intro S. specialize (S one_row). rewrite (P one_row) in S. destruct S as [S|S]; [discriminate|].
  cbn in S. injection S as S. lra.
Qed.
