(** Two trainings whose parts correspond run in step. *)
From Coq Require Import ZArith QArith List Bool Reals Lra Lia.
From Verif.Model Require Import Num LexBins Train.
Import ListNotations.
Local Open Scope R_scope.

Section Simulation.
Variable cfg : settings.
Variable F1 F2 : list feature.
Variable calc1 calc2 : nat -> nat -> preds -> list R.
Variable smooth1 smooth2 : nat -> nat -> preds -> list R -> nat -> option R.
Variable calib1 calib2 : nat -> list R -> list R.
Variable rate1 rate2 : nat -> nat -> R.
Variable loss1 loss2 : preds -> R.
(** Relations between the predictions and between the vectors of group [i]. *)
Variable RP : preds -> preds -> Prop.
Variable RF : nat -> list R -> list R -> Prop.

Definition RA (i : nat) (a b : option (list R)) : Prop :=
  match a, b with Some x, Some y => RF i x y | None, None => True | _, _ => False end.
Record RS (i : nat) (s t : fstate) : Prop := {
  rs_fitted : s_fitted s = s_fitted t;
  rs_factors : RF i (s_factors s) (s_factors t);
  rs_old : RF i (s_old s) (s_old t);
  rs_agg : RA i (s_agg s) (s_agg t);
  rs_zero : s_zero s = s_zero t }.
Inductive RSL : nat -> list fstate -> list fstate -> Prop :=
| rsl_nil i : RSL i [] []
| rsl_cons i s t sl tl : RS i s t -> RSL (S i) sl tl -> RSL i (s :: sl) (t :: tl).

(** Features of the two sides: group [i] of both, with what its own vectors allow. *)
Record RG (i : nat) (f g : feature) : Prop := {
  rg_dim : f_dim f = f_dim g;
  rg_hier : f_hier f = f_hier g;
  rg_ext : f_ext f = f_ext g;
  rg_zero : RF i (zeros (S (f_finite f))) (zeros (S (f_finite g)));
  rg_add : forall p q v u, RP p q -> RF i v u ->
    RP (add_preds (f_ext f) p (gather v (f_lex f))) (add_preds (f_ext g) q (gather u (f_lex g)));
  rg_sub : forall p q v u, RP p q -> RF i v u ->
    RP (sub_preds (f_ext f) p (gather v (f_lex f))) (sub_preds (f_ext g) q (gather u (f_lex g)));
  rg_new : forall s t it p q, RS i s t -> RP p q ->
    RF i (fst (new_factors calc1 smooth1 calib1 rate1 i f s it p)) (fst (new_factors calc2 smooth2 calib2 rate2 i g t it q)) /\
    RF i (snd (new_factors calc1 smooth1 calib1 rate1 i f s it p)) (snd (new_factors calc2 smooth2 calib2 rate2 i g t it q)) }.
Inductive RGL : nat -> list feature -> list feature -> Prop :=
| rgl_nil i : RGL i [] []
| rgl_cons i f g fl gl : RG i f g -> RGL (S i) fl gl -> RGL i (f :: fl) (g :: gl).

Hypothesis groups : RGL 0 F1 F2.
Hypothesis losses : forall p q, RP p q -> loss1 p = loss2 q.
Hypothesis vadds : forall i a b u v, RF i a b -> RF i u v -> RF i (vadd a u) (vadd b v).
Hypothesis vsubs : forall i a b u v, RF i a b -> RF i u v -> RF i (vsub a u) (vsub b v).
Hypothesis devs : forall i a b u v, RF i a b -> RF i u v ->
  mean (map Rabs (vsub a u)) = mean (map Rabs (vsub b v)).
Hypothesis clips : c_log cfg && c_aggregate cfg = true ->
  forall i a b, RF i a b -> RF i (clip_step a) (clip_step b) /\ RF i (map Ropp a) (map Ropp b).
Hypothesis clips_abs : c_log cfg && c_aggregate cfg = true ->
  forall i f g a b u v, f_dim f = f_dim g -> f_ext f = f_ext g -> RF i a b -> RF i u v ->
  RF i (clip_absolute f a u) (clip_absolute g b v).
Hypothesis clips_un : c_log cfg && c_aggregate cfg = true ->
  forall i a b u v, RF i a b -> RF i u v ->
  RF i (map2 (fun u x => clip (u + ln (8/10)) (u + ln (12/10)) x) a u) (map2 (fun u x => clip (u + ln (8/10)) (u + ln (12/10)) x) b v).

Definition RO {A B} (R : A -> B -> Prop) (a : outcome A) (b : outcome B) : Prop :=
  match a, b with Ok x, Ok y => R x y | Raise e, Raise e' => e = e' | _, _ => False end.

Lemma sim_limit i f g s t un vn fs gs p q d dv ini : RG i f g -> RS i s t -> RF i un vn -> RF i fs gs -> RP p q ->
  RO (fun a b => RF i (fst a) (fst b) /\ snd a = snd b)
    (limit_factors cfg loss1 f s un fs p d dv ini) (limit_factors cfg loss2 g t vn gs q d dv ini).
Proof.
  intros G Sr U Fr P. unfold limit_factors. destruct (c_log cfg && c_aggregate cfg) eqn:C.
  2:{ cbn. split; auto. apply (rs_zero _ _ _ Sr). }
  pose proof (proj1 (clips eq_refl i _ _ Fr)) as F1'.
  rewrite <- (rs_fitted _ _ _ Sr).
  assert (F2' : RF i (if s_fitted s then match s_agg s with Some a => clip_absolute f a (clip_step fs) | None => clip_step fs end else clip_step fs)
                     (if s_fitted s then match s_agg t with Some a => clip_absolute g a (clip_step gs) | None => clip_step gs end else clip_step gs)).
  { destruct (s_fitted s); auto. pose proof (rs_agg _ _ _ Sr) as A. unfold RA in A.
    destruct (s_agg s), (s_agg t); try contradiction; auto.
    apply clips_abs; auto; [apply (rg_dim _ _ _ G)|apply (rg_ext _ _ _ G)]. }
  cbv zeta.
  set (fs2 := if s_fitted s then _ else clip_step fs) in *. set (gs2 := if s_fitted s then _ else clip_step gs) in *.
  clearbody fs2 gs2.
  rewrite <- (losses _ _ (rg_add _ _ _ G _ _ _ _ P F2')).
  destruct d; [|cbn; split; auto; apply (rs_zero _ _ _ Sr)].
  destruct (Nat.ltb 1 dv); destruct (is_diverged _ _).
  - pose proof (rs_agg _ _ _ Sr) as A. unfold RA in A.
    destruct (s_agg s), (s_agg t); try contradiction; cbn; auto. split; auto. apply (clips eq_refl i _ _ A).
  - cbn. split; auto. apply (rs_zero _ _ _ Sr).
  - cbn. split; [apply clips_un; auto|apply (rs_zero _ _ _ Sr)].
  - cbn. split; auto. apply (rs_zero _ _ _ Sr).
Qed.

Lemma sim_visit i f g s t un vn fs gs p q d dv ini : RG i f g -> RS i s t -> RF i un vn -> RF i fs gs -> RP p q ->
  RO (RS i) (visit_factors cfg loss1 f s un fs p d dv ini) (visit_factors cfg loss2 g t vn gs q d dv ini).
Proof.
  intros G Sr U Fr P. unfold visit_factors.
  pose proof (sim_limit i f g s t un vn fs gs p q d dv ini G Sr U Fr P) as L.
  destruct (limit_factors cfg loss1 _ _ _ _ _ _ _ _) as [[a z]|e], (limit_factors cfg loss2 _ _ _ _ _ _ _ _) as [[b z']|e'];
    cbn in L; try contradiction; cbn; auto.
  destruct L as [L ->]. constructor; cbn; auto.
  - apply (rs_factors _ _ _ Sr).
  - rewrite <- (rs_fitted _ _ _ Sr). destruct (s_fitted s && c_aggregate cfg); auto.
    pose proof (rs_agg _ _ _ Sr) as A. unfold RA in A. destruct (s_agg s), (s_agg t); try contradiction; auto.
Qed.

Lemma sim_feature i f g s t it p q d dv ini : RG i f g -> RS i s t -> RP p q ->
  RO (fun a b => RS i (fst a) (fst b) /\ RP (snd a) (snd b))
    (feature_iteration cfg calc1 smooth1 calib1 rate1 loss1 i f s it p d dv ini)
    (feature_iteration cfg calc2 smooth2 calib2 rate2 loss2 i g t it q d dv ini).
Proof.
  intros G Sr P. unfold feature_iteration.
  set (p0 := if c_aggregate cfg then p else _). set (q0 := if c_aggregate cfg then q else _).
  assert (P0 : RP p0 q0).
  { unfold p0, q0. destruct (c_aggregate cfg); auto. apply (rg_sub _ _ _ G); auto. apply (rs_factors _ _ _ Sr). }
  pose proof (rg_new _ _ _ G s t it p0 q0 Sr P0) as [N1 N2].
  destruct (new_factors calc1 _ _ _ _ _ _ _ _) as [un fs]. destruct (new_factors calc2 _ _ _ _ _ _ _ _) as [vn gs].
  cbn in N1, N2.
  pose proof (sim_visit i f g s t un vn fs gs p0 q0 d dv ini G Sr N1 N2 P0) as V.
  destruct (visit_factors cfg loss1 _ _ _ _ _ _ _ _) as [s'|e], (visit_factors cfg loss2 _ _ _ _ _ _ _ _) as [t'|e'];
    cbn in V; try contradiction; cbn; auto.
  split; auto. apply (rg_add _ _ _ G); auto. apply (rs_factors _ _ _ V).
Qed.

Lemma sim_pass d dv ini it : forall i fl gl, RGL i fl gl -> forall sl tl p q, RSL i sl tl -> RP p q ->
  RO (fun a b => RSL i (fst a) (fst b) /\ RP (snd a) (snd b))
    (features_pass cfg calc1 smooth1 calib1 rate1 loss1 i fl sl it p d dv ini)
    (features_pass cfg calc2 smooth2 calib2 rate2 loss2 i gl tl it q d dv ini).
Proof.
  intros i fl gl H. induction H as [i|i f g fl gl G _ IH]; intros sl tl p q SL P.
  - split; [constructor|auto].
  - inversion SL; subst; cbn [features_pass].
    + split; [constructor|auto].
    + assert (HERE : RO (fun a b => RS i (fst a) (fst b) /\ RP (snd a) (snd b))
         (if skipped cfg f it then Ok ({| s_fitted := s_fitted s; s_factors := s_factors s; s_old := s_factors s;
                 s_agg := s_agg s; s_zero := s_zero s |}, p)
          else feature_iteration cfg calc1 smooth1 calib1 rate1 loss1 i f s it p d dv ini)
         (if skipped cfg g it then Ok ({| s_fitted := s_fitted t; s_factors := s_factors t; s_old := s_factors t;
                 s_agg := s_agg t; s_zero := s_zero t |}, q)
          else feature_iteration cfg calc2 smooth2 calib2 rate2 loss2 i g t it q d dv ini)).
      { unfold skipped. rewrite <- (rg_hier _ _ _ G). destruct (c_hier cfg && Nat.ltb it (c_thier cfg) && negb (f_hier f)).
        - cbn. split; auto. destruct H. constructor; cbn; auto.
        - apply sim_feature; auto. }
      cbv zeta. destruct (if skipped cfg f it then _ else _) as [[s' p']|e]; destruct (if skipped cfg g it then _ else _) as [[t' q']|e'];
        cbn in HERE; try contradiction; auto.
      destruct HERE as [S' P']. pose proof (IH sl0 tl0 p' q' H0 P') as R.
      destruct (features_pass cfg calc1 _ _ _ _ _ _ _ _ _ _ _ _) as [[r x]|e], (features_pass cfg calc2 _ _ _ _ _ _ _ _ _ _ _ _) as [[r' x']|e'];
        cbn in R; try contradiction; cbn; auto.
      destruct R. split; auto. constructor; auto.
Qed.

Lemma sim_remove : forall i fl gl, RGL i fl gl -> forall sl tl p q, RSL i sl tl -> RP p q ->
  RO (fun a b => RSL i (fst a) (fst b) /\ RP (snd a) (snd b)) (remove_preds fl sl p) (remove_preds gl tl q).
Proof.
  intros i fl gl H. induction H as [i|i f g fl gl G _ IH]; intros sl tl p q SL P.
  - split; [constructor|auto].
  - inversion SL; subst; cbn [remove_preds].
    + split; [constructor|auto].
    + pose proof (rs_agg _ _ _ H) as A. unfold RA in A. destruct (s_agg s) as [a|], (s_agg t) as [b|]; try contradiction; cbn; auto.
      assert (P' : RP (sub_preds (f_ext f) p (gather (s_factors s) (f_lex f))) (sub_preds (f_ext g) q (gather (s_factors t) (f_lex g)))).
      { apply (rg_sub _ _ _ G); auto. apply (rs_factors _ _ _ H). }
      pose proof (IH sl0 tl0 _ _ H0 P') as R.
      destruct (remove_preds fl _ _) as [[r x]|e], (remove_preds gl _ _) as [[r' x']|e']; cbn in R; try contradiction; cbn; auto.
      destruct R. split; auto. constructor; auto. destruct H. constructor; cbn; auto.
Qed.

Lemma sim_deviation i sl tl : RSL i sl tl -> factors_deviation sl = factors_deviation tl.
Proof.
  intro H. unfold factors_deviation. f_equal. induction H; cbn; auto. f_equal; auto.
  destruct H. apply (devs i); auto.
Qed.

Record RT (a b : state) : Prop := {
  rt_preds : RP (t_preds a) (t_preds b);
  rt_feats : RSL 0 (t_feats a) (t_feats b);
  rt_iter : t_iter a = t_iter b;
  rt_diverging : t_diverging a = t_diverging b;
  rt_isdiv : t_isdiv a = t_isdiv b;
  rt_loss : t_loss a = t_loss b;
  rt_losschange : t_losschange a = t_losschange b;
  rt_delta : t_delta a = t_delta b }.

Lemma sim_iteration ini a b : RT a b ->
  RO RT (iteration cfg F1 calc1 smooth1 calib1 rate1 loss1 ini a) (iteration cfg F2 calc2 smooth2 calib2 rate2 loss2 ini b).
Proof.
  intros T. unfold iteration. rewrite <- (rt_iter _ _ T), <- (rt_isdiv _ _ T), <- (rt_diverging _ _ T), <- (rt_loss _ _ T).
  pose proof (sim_pass (t_isdiv a) (t_diverging a) ini (t_iter a) 0 _ _ groups _ _ _ _ (rt_feats _ _ T) (rt_preds _ _ T)) as R.
  destruct (features_pass cfg calc1 _ _ _ _ _ _ _ _ _ _ _ _) as [[sl p]|e], (features_pass cfg calc2 _ _ _ _ _ _ _ _ _ _ _ _) as [[tl q]|e'];
    cbn in R; try contradiction; cbn; auto.
  destruct R as [SL P]. cbv zeta. rewrite <- (losses _ _ P), <- (sim_deviation _ _ _ SL).
  destruct (is_diverged ini (loss1 p)) eqn:DV; cbn [andb].
  - match goal with |- context [if ?c then Raise ConvergenceError else _] => destruct c end; [cbn; auto|].
    pose proof (sim_remove 0 _ _ groups _ _ _ _ SL P) as R.
    destruct (remove_preds F1 sl p) as [[r x]|e], (remove_preds F2 tl q) as [[r' x']|e']; cbn in R; try contradiction; cbn; auto.
    destruct R. constructor; cbn; auto.
  - constructor; cbn; auto.
Qed.

Lemma sim_finish ini a b : RT a b -> RO RT (finish ini a) (finish ini b).
Proof.
  intros T. unfold finish.
  assert (E : forall i sl tl, RSL i sl tl -> forallb (fun s => match s_agg s with Some _ => true | None => false end) sl =
    forallb (fun s => match s_agg s with Some _ => true | None => false end) tl).
  { intros i sl tl H. induction H; cbn; auto. f_equal; auto. pose proof (rs_agg _ _ _ H) as A. unfold RA in A.
    destruct (s_agg s), (s_agg t); auto; contradiction. }
  rewrite <- (E 0%nat _ _ (rt_feats _ _ T)), <- (rt_loss _ _ T), <- (rt_diverging _ _ T).
  destruct (forallb _ _); [|cbn; reflexivity]. match goal with |- context [if ?c then Raise ConvergenceError else _] => destruct c end; [cbn; reflexivity|exact T].
Qed.

Definition ROO (a b : option (outcome state)) : Prop :=
  match a, b with Some x, Some y => RO RT x y | None, None => True | _, _ => False end.

Lemma sim_loop ini fuel : forall a b, RT a b ->
  ROO (loop cfg F1 calc1 smooth1 calib1 rate1 loss1 fuel ini a) (loop cfg F2 calc2 smooth2 calib2 rate2 loss2 fuel ini b).
Proof.
  induction fuel as [|fuel IH]; intros a b T.
  all: assert (E : continues cfg a = continues cfg b) by
    (unfold continues, check_stop, stop_iterations, stop_factor_change, stop_loss_change, veto_hierarchical;
     rewrite <- (rt_iter _ _ T), <- (rt_isdiv _ _ T), <- (rt_losschange _ _ T), <- (rt_delta _ _ T); auto).
  - cbn [loop]. rewrite <- E. destruct (continues cfg a); cbn; auto. apply sim_finish; auto.
  - cbn [loop]. rewrite <- E. destruct (continues cfg a); [|cbn; apply sim_finish; auto].
    pose proof (sim_iteration ini a b T) as I.
    destruct (iteration cfg F1 _ _ _ _ _ _ _) as [x|e], (iteration cfg F2 _ _ _ _ _ _ _) as [y|e']; cbn in I; try contradiction; cbn; auto.
Qed.

Theorem sim_fit fuel p q : RP p q ->
  ROO (fit_main cfg F1 calc1 smooth1 calib1 rate1 loss1 fuel p) (fit_main cfg F2 calc2 smooth2 calib2 rate2 loss2 fuel q).
Proof.
  intro P. unfold fit_main. rewrite <- (losses _ _ P). apply sim_loop.
  unfold init_state. rewrite (losses _ _ P).
  constructor; cbn [t_preds t_feats t_iter t_diverging t_isdiv t_loss t_losschange t_delta]; try reflexivity; [exact P|].
  assert (E : forall i fl gl, RGL i fl gl -> RSL i (map init_fstate fl) (map init_fstate gl)).
  { intros i fl gl H. induction H; cbn; constructor; auto.
    constructor; cbn; auto; apply (rg_zero _ _ _ H). }
  apply E, groups.
Qed.
End Simulation.
