(** Feature groups whose factors are 0 for all rows of the training data do not influence the others. *)
From Coq Require Import ZArith QArith List Bool Arith Lia Reals Lra.
From Verif.Model Require Import Num LexBins Train.
From Verif.Spec Require Import TrainSpec HierSpec.
From Verif.Proofs Require Import TrainFacts TrainHistory TrainExamples InertFacts.
Import ListNotations.
Local Open Scope R_scope.

Section Silent.
Variable cfg : settings.
Hypothesis Hlog : c_log cfg = false.
Variable loss : preds -> R.
Variables calc1 calc2 : nat -> nat -> preds -> list R.
Variables smooth1 smooth2 : nat -> nat -> preds -> list R -> nat -> option R.
Variables calib1 calib2 : nat -> list R -> list R.
Variables rate1 rate2 : nat -> nat -> R.
(** Number of rows; whether the silent group is hierarchical. *)
Variable N : nat.
Variable hz : bool.
(** Position of the silent group. *)
Variable kz : nat.

Definition agree (i j : nat) : Prop :=
  i <> kz /\ calc1 i = calc2 j /\ smooth1 i = smooth2 j /\ calib1 i = calib2 j /\ forall it, rate1 it i = rate2 it j.
Definition inert (i : nat) (f : feature) : Prop :=
  f_ext f = false /\ (forall v, length v = S (f_finite f) -> gather (calib1 i v) (f_lex f) = repeat 0 N) /\ f_hier f = hz /\ i = kz.
Definition quiet (P : Prop) (f : feature) (s : fstate) : Prop :=
  gather (s_factors s) (f_lex f) = repeat 0 N /\ (s_agg s <> None \/ (s_agg s = None /\ P)).
Inductive Rel (P : Prop) : nat -> nat -> list feature -> list feature -> list fstate -> list fstate -> Prop :=
| rel_nil i j : Rel P i j [] [] [] []
| rel_keep i j f F G s sl tl : agree i j -> length (f_lex f) = N -> f_ext f = false -> Rel P (S i) (S j) F G sl tl -> Rel P i j (f :: F) (f :: G) (s :: sl) (s :: tl)
| rel_drop i j f F G s sl tl : inert i f -> quiet P f s -> Rel P (S i) j F G sl tl -> Rel P i j (f :: F) G (s :: sl) tl.

Lemma new_agree i j f s it p : agree i j -> new_factors calc1 smooth1 calib1 rate1 i f s it p = new_factors calc2 smooth2 calib2 rate2 j f s it p.
Proof. intros (_ & A & B & C & E). unfold new_factors. rewrite A, B, C, E. reflexivity. Qed.
Lemma iter_agree i j f s it p d k ini : agree i j ->
  feature_iteration cfg calc1 smooth1 calib1 rate1 loss i f s it p d k ini = feature_iteration cfg calc2 smooth2 calib2 rate2 loss j f s it p d k ini.
Proof. intro A. unfold feature_iteration. rewrite (new_agree i j f s it _ A). reflexivity. Qed.

Lemma vadd_length a b : length a = N -> length b = N -> length (vadd a b) = N.
Proof. intros A B. unfold vadd. rewrite map2_length by congruence. exact A. Qed.
Lemma vsub_length a b : length a = N -> length b = N -> length (vsub a b) = N.
Proof. intros A B. unfold vsub. rewrite map2_length by congruence. exact A. Qed.

Lemma iter_shape i f s it p d k ini s' p' : length (f_lex f) = N -> f_ext f = false -> length (p_factors p) = N ->
  feature_iteration cfg calc2 smooth2 calib2 rate2 loss i f s it p d k ini = Ok (s', p') -> length (p_factors p') = N.
Proof.
  intros L X H. unfold feature_iteration. destruct (new_factors _ _ _ _ _ _ _ _ _) as [u fs].
  destruct (visit_factors _ _ _ _ _ _ _ _ _ _) as [t|e]; [|discriminate]. intro E. injection E as _ <-. rewrite X. unfold add_preds, sub_preds.
  cbn [p_factors]. apply vadd_length; [|rewrite gather_length; exact L].
  destruct (c_aggregate cfg); [exact H|]. cbn [p_factors]. apply vsub_length; [exact H|rewrite gather_length; exact L].
Qed.

Lemma sub_nothing p v : length (p_factors p) = N -> v = repeat 0 N -> sub_preds false p v = p.
Proof. intros H ->. unfold sub_preds. rewrite vsub_zeros by exact H. destruct p; reflexivity. Qed.
Lemma add_nothing p v : length (p_factors p) = N -> v = repeat 0 N -> add_preds false p v = p.
Proof. intros H ->. unfold add_preds. rewrite vadd_zeros by exact H. destruct p; reflexivity. Qed.

Lemma inert_step P i f s it p d k ini : inert i f -> quiet P f s -> length (p_factors p) = N ->
  exists s', feature_iteration cfg calc1 smooth1 calib1 rate1 loss i f s it p d k ini = Ok (s', p) /\ gather (s_factors s') (f_lex f) = repeat 0 N /\ s_agg s' <> None.
Proof.
  intros (X & C & _ & _) (Q1 & Q2) H. unfold feature_iteration.
  assert (P0 : (if c_aggregate cfg then p else sub_preds (f_ext f) p (gather (s_factors s) (f_lex f))) = p).
  { destruct (c_aggregate cfg); [reflexivity|]. rewrite X. apply sub_nothing; assumption. }
  rewrite P0. unfold new_factors. cbv zeta. match goal with |- context [calib1 i ?v] => pose proof (C v) as Cv; set (fs := calib1 i v) in * end.
  specialize (Cv ltac:(rewrite app_length, map_length, seq_length; cbn; lia)).
  unfold visit_factors, limit_factors. rewrite Hlog. cbn [andb]. eexists. split; [rewrite X; cbn [s_factors]; rewrite add_nothing by assumption; reflexivity|].
  cbn [s_factors s_agg]. split; [exact Cv|]. destruct (s_fitted s && c_aggregate cfg); [destruct (s_agg s)|]; discriminate.
Qed.

(** What is left open about the groups without values: they may not have been trained yet. *)
Definition open_at (it : nat) : Prop := it = 0%nat \/ (c_hier cfg = true /\ hz = false /\ (it <= c_thier cfg)%nat).
Definition waiting (it : nat) : Prop := c_hier cfg = true /\ hz = false /\ (it < c_thier cfg)%nat.

Definition related (P : Prop) (i j : nat) (F G : list feature) (a b : outcome (list fstate * preds)) : Prop :=
  match a, b with
  | Ok (sl, p), Ok (tl, q) => Rel P i j F G sl tl /\ p = q /\ length (p_factors p) = N
  | Raise e, Raise e' => e = e'
  | _, _ => False
  end.

Lemma pass_related P it d k ini :
  forall i j F G sl tl, Rel P i j F G sl tl -> forall p, length (p_factors p) = N ->
  related (waiting it) i j F G (features_pass cfg calc1 smooth1 calib1 rate1 loss i F sl it p d k ini)
                      (features_pass cfg calc2 smooth2 calib2 rate2 loss j G tl it p d k ini).
Proof.
  intros i j F G sl tl A. induction A as [i j|i j f F G s sl tl A Lf X A' IH|i j f F G s sl tl I Q A' IH]; intros p L.
  - cbn. split; [constructor|auto].
  - cbn [features_pass]. destruct (skipped cfg f it) eqn:Sk.
    + specialize (IH p L). unfold related in *.
      destruct (features_pass cfg calc1 _ _ _ _ _ _ _ _ _ _ _ _) as [[r q]|e], (features_pass cfg calc2 _ _ _ _ _ _ _ _ _ _ _ _) as [[r' q']|e']; try contradiction; auto.
      destruct IH as (R1 & R2 & R3). split; [constructor; assumption|auto].
    + rewrite (iter_agree i j f s it p d k ini A).
      destruct (feature_iteration cfg calc2 smooth2 calib2 rate2 loss j f s it p d k ini) as [[s' p']|e] eqn:E; [|reflexivity].
      specialize (IH p' (iter_shape _ _ _ _ _ _ _ _ _ _ Lf X L E)). unfold related in *.
      destruct (features_pass cfg calc1 _ _ _ _ _ _ _ _ _ _ _ _) as [[r q]|e], (features_pass cfg calc2 _ _ _ _ _ _ _ _ _ _ _ _) as [[r' q']|e']; try contradiction; auto.
      destruct IH as (R1 & R2 & R3). split; [constructor; assumption|auto].
  - cbn [features_pass]. destruct (skipped cfg f it) eqn:Sk.
    + specialize (IH p L). unfold related in *.
      destruct (features_pass cfg calc1 _ _ _ _ _ _ _ _ _ _ _ _) as [[r q]|e], (features_pass cfg calc2 _ _ _ _ _ _ _ _ _ _ _ _) as [[r' q']|e']; try contradiction; auto.
      destruct IH as (R1 & R2 & R3). split; [|auto]. apply rel_drop; [exact I| |exact R1].
      destruct Q as (Q1 & Q2). split; [exact Q1|]. cbn [s_agg]. destruct Q2 as [Q2|(Q2 & _)]; [left; exact Q2|right]. split; [exact Q2|].
      unfold skipped in Sk. apply andb_prop in Sk as (Sk & S3). apply andb_prop in Sk as (S1 & S2). apply Nat.ltb_lt in S2.
      destruct I as (_ & _ & Hf & _). rewrite Hf in S3. split; [exact S1|]. split; [destruct hz; [discriminate|reflexivity]|exact S2].
    + destruct (inert_step P i f s it p d k ini I Q L) as (s' & -> & S1 & S2).
      specialize (IH p L). unfold related in *.
      destruct (features_pass cfg calc1 _ _ _ _ _ _ _ _ _ _ _ _) as [[r q]|e], (features_pass cfg calc2 _ _ _ _ _ _ _ _ _ _ _ _) as [[r' q']|e']; try contradiction; auto.
      destruct IH as (R1 & R2 & R3). split; [|auto]. apply rel_drop; [exact I|split; [exact S1|left; exact S2]|exact R1].
Qed.

Lemma rel_weaken (P Q : Prop) : (P -> Q) -> forall i j F G sl tl, Rel P i j F G sl tl -> Rel Q i j F G sl tl.
Proof.
  intros H i j F G sl tl A. induction A as [i j|i j f F G s sl tl A Lf X A' IH|i j f F G s sl tl I (Q1 & Q2) A' IH]; [constructor|constructor; assumption|].
  apply rel_drop; [exact I| |exact IH]. split; [exact Q1|]. destruct Q2 as [Q2|(Q2 & Q3)]; [left; exact Q2|right; split; auto].
Qed.

Lemma remove_type_error : forall F sl q e, remove_preds F sl q = Raise e -> e = TypeError.
Proof.
  induction F as [|g F IH]; intros [|t sl] q e E; cbn in E; try discriminate. destruct (s_agg t); [|congruence].
  destruct (remove_preds F sl _) as [[? ?]|e0] eqn:E0; [discriminate|]. injection E as <-. exact (IH _ _ _ E0).
Qed.

Lemma remove_related P : forall i j F G sl tl, Rel P i j F G sl tl -> forall p, length (p_factors p) = N ->
  related P i j F G (remove_preds F sl p) (remove_preds G tl p) \/ (remove_preds F sl p = Raise TypeError /\ P).
Proof.
  intros i j F G sl tl A. induction A as [i j|i j f F G s sl tl A Lf X A' IH|i j f F G s sl tl I (Q1 & Q2) A' IH]; intros p L.
  - left. cbn. split; [constructor|auto].
  - cbn [remove_preds]. set (p' := sub_preds (f_ext f) p (gather (s_factors s) (f_lex f))).
    destruct (s_agg s) as [a|]; [|left; reflexivity].
    assert (L' : length (p_factors p') = N) by (unfold p', sub_preds; rewrite X; cbn [p_factors]; apply vsub_length; [exact L|rewrite gather_length; exact Lf]).
    destruct (IH p' L') as [R0|(R0 & R1)]; [left|right; split; [rewrite R0; reflexivity|exact R1]].
    unfold related in *. destruct (remove_preds F sl p') as [[r q]|e], (remove_preds G tl p') as [[r' q']|e']; try contradiction; auto.
    destruct R0 as (R1 & R2 & R3). split; [constructor; assumption|auto].
  - cbn [remove_preds]. destruct (s_agg s) as [a|] eqn:Ea; [|right; split; [reflexivity|destruct Q2 as [Q2|(_ & Q3)]; [congruence|exact Q3]]].
    pose proof I as (X & _). rewrite X, sub_nothing by assumption.
    destruct (IH p L) as [R0|(R0 & R1)]; [left|right; split; [rewrite R0; reflexivity|exact R1]].
    unfold related in *. destruct (remove_preds F sl p) as [[r q]|e], (remove_preds G tl p) as [[r' q']|e']; try contradiction; auto.
    destruct R0 as (R1 & R2 & R3). split; [|auto]. apply rel_drop; [exact I| |exact R1]. split; [exact Q1|]. left. discriminate.
Qed.

Section Steps.
Variables F G : list feature.
Variable prior : preds.
Notation hist1 := (reached cfg F calc1 smooth1 calib1 rate1 loss prior).
Notation hist2 := (reached cfg G calc2 smooth2 calib2 rate2 loss prior).
Notation iter1 := (iteration cfg F calc1 smooth1 calib1 rate1 loss (loss prior)).
Notation iter2 := (iteration cfg G calc2 smooth2 calib2 rate2 loss (loss prior)).

Definition alike (st tt : state) : Prop :=
  same_progress st tt /\ Rel (open_at (t_iter st)) 0 0 F G (t_feats st) (t_feats tt) /\ length (p_factors (t_preds st)) = N.

Lemma waiting_open it : waiting it -> open_at (S it).
Proof. intros (A & B & C). right. repeat split; auto. Qed.

Lemma step_related st tt : alike st tt ->
  match iter1 st, iter2 tt with
  | Ok st', Ok tt' => alike st' tt'
  | Raise e, Raise e' => e = e'
  | Raise e, Ok tt' => waiting (t_iter st) /\ t_isdiv tt' = true
  | Ok _, Raise _ => False
  end.
Proof.
  intros ((P1 & P2 & P3 & P4 & P5 & P6) & Rl & L). unfold iteration. rewrite P1, P2, P3, P5, P6.
  pose proof (pass_related _ (t_iter st) (t_isdiv st) (t_diverging st) (loss prior) 0%nat 0%nat F G _ _ Rl (t_preds st) L) as R0. unfold related in R0.
  destruct (features_pass cfg calc1 _ _ _ _ _ _ _ _ _ _ _ _) as [[sl p]|e], (features_pass cfg calc2 _ _ _ _ _ _ _ _ _ _ _ _) as [[tl q]|e']; try contradiction; [|exact R0].
  destruct R0 as (R1 & <- & R3). cbv zeta. destruct (is_diverged (loss prior) (loss p)) eqn:D; cbn [andb].
  - destruct (Nat.leb 5 (S (t_diverging st))); [reflexivity|].
    destruct (remove_related _ 0%nat 0%nat F G sl tl R1 p R3) as [Rm|(Rm & W)].
    + unfold related in Rm. destruct (remove_preds F sl p) as [[r q]|e], (remove_preds G tl p) as [[r' q']|e']; try contradiction; [|exact Rm].
      destruct Rm as (M1 & <- & M3). split; [repeat split; cbn; congruence|]. cbn [t_iter t_feats t_preds]. split; [|exact M3].
      apply (rel_weaken _ _ (waiting_open (t_iter st)) _ _ _ _ _ _ M1).
    + rewrite Rm. destruct (remove_preds G tl p) as [[r' q']|e'] eqn:E'; [split; [exact W|reflexivity]|]. symmetry. exact (remove_type_error _ _ _ _ E').
  - split; [repeat split; cbn; congruence|]. cbn [t_iter t_feats t_preds]. split; [|exact R3].
    apply (rel_weaken _ _ (waiting_open (t_iter st)) _ _ _ _ _ _ R1).
Qed.

Hypothesis Hstart : Rel (open_at 0) 0 0 F G (map init_fstate F) (map init_fstate G).
Hypothesis Hrows : length (p_factors prior) = N.

Lemma start_alike : alike (init_state F loss prior) (init_state G loss prior).
Proof. split; [repeat split|]. split; [exact Hstart|exact Hrows]. Qed.

Lemma iter_count features calc smooth calib rate st st' :
  iteration cfg features calc smooth calib rate loss (loss prior) st = Ok st' -> t_iter st' = S (t_iter st).
Proof.
  unfold iteration. destruct (features_pass _ _ _ _ _ _ _ _ _ _ _ _ _ _) as [[sl p]|]; [|discriminate]. cbv zeta.
  destruct (_ && _); [discriminate|]. destruct (if is_diverged _ _ then _ else _) as [[r q]|]; [|discriminate]. intro E. injection E as <-. reflexivity.
Qed.

(** After the same number of passes the states are alike. *)
Theorem same_pass_alike st : hist1 st -> forall tt, hist2 tt -> t_iter tt = t_iter st -> alike st tt.
Proof.
  intro H. induction H as [|st st' H IH C E]; intros tt Ht I.
  - destruct Ht as [|tt tt' Ht Ct Et]; [exact start_alike|]. rewrite (iter_count _ _ _ _ _ _ _ Et) in I. discriminate.
  - destruct Ht as [|tt tt' Ht Ct Et]; [rewrite (iter_count _ _ _ _ _ _ _ E) in I; discriminate|].
    rewrite (iter_count _ _ _ _ _ _ _ E), (iter_count _ _ _ _ _ _ _ Et) in I. injection I as I.
    pose proof (step_related st tt (IH tt Ht I)) as R0. rewrite E, Et in R0. exact R0.
Qed.

(** Without the criterion of the factor change both trainings end alike. *)
Hypothesis Hmin : c_minfactor cfg < 0.
Hypothesis Hhz : c_hier cfg = false \/ hz = true \/ forall tt, hist2 tt -> t_isdiv tt = false.
Hypothesis HG : G <> [].

Lemma mean_nonneg l : Forall (fun x => 0 <= x) l -> 0 <= mean l.
Proof.
  intro H. unfold mean. assert (S0 : 0 <= sumR l) by (induction H; cbn; lra).
  destruct l as [|x l]; [cbn; unfold Rdiv; rewrite Rmult_0_l; lra|]. apply Rmult_le_pos; [exact S0|]. left. apply Rinv_0_lt_compat. apply lt_0_INR. cbn. lia.
Qed.
Lemma deviation_pos sl : 0 <= factors_deviation sl.
Proof.
  unfold factors_deviation. apply mean_nonneg. apply Forall_map, Forall_forall. intros s _. apply mean_nonneg. apply Forall_map, Forall_forall. intros x _. apply Rabs_pos.
Qed.
Lemma iter_delta features calc smooth calib rate st st' :
  iteration cfg features calc smooth calib rate loss (loss prior) st = Ok st' -> 0 <= t_delta st'.
Proof.
  unfold iteration. destruct (features_pass _ _ _ _ _ _ _ _ _ _ _ _ _ _) as [[sl p]|]; [|discriminate]. cbv zeta.
  destruct (_ && _); [discriminate|]. destruct (if is_diverged _ _ then _ else _) as [[r q]|]; [|discriminate]. intro E. injection E as <-. apply deviation_pos.
Qed.
Lemma continues_same st tt : same_progress st tt -> 0 <= t_delta st -> 0 <= t_delta tt -> continues cfg st = continues cfg tt.
Proof.
  intros (P1 & P2 & P3 & P4 & P5 & P6) A B. unfold continues, check_stop, stop_iterations, stop_factor_change, stop_loss_change, veto_hierarchical.
  rewrite P2, P4, P6. rewrite (proj2 (Rleb_false (t_delta st) _)) by lra. rewrite (proj2 (Rleb_false (t_delta tt) _)) by lra. reflexivity.
Qed.

Lemma rel_fitted P : forall i j sl tl F G, Rel P i j F G sl tl -> ~ P ->
  forallb (fun s => match s_agg s with Some _ => true | None => false end) sl = forallb (fun s => match s_agg s with Some _ => true | None => false end) tl.
Proof.
  intros i j sl tl F0 G0 A. induction A as [i j|i j f F0 G0 s sl tl A Lf X A' IH|i j f F0 G0 s sl tl I (Q1 & Q2) A' IH]; intro NP; cbn [forallb]; [reflexivity|rewrite (IH NP); reflexivity|].
  destruct Q2 as [Q2|(_ & Q2)]; [|contradiction]. destruct (s_agg s); [exact (IH NP)|congruence].
Qed.

Lemma reached_zero tt : hist2 tt -> t_iter tt = 0%nat -> tt = init_state G loss prior.
Proof. intros [|t t' H C E] I; [reflexivity|]. rewrite (iter_count _ _ _ _ _ _ _ E) in I. discriminate. Qed.
Lemma reached_zero1 st : hist1 st -> t_iter st = 0%nat -> st = init_state F loss prior.
Proof. intros [|t t' H C E] I; [reflexivity|]. rewrite (iter_count _ _ _ _ _ _ _ E) in I. discriminate. Qed.

Lemma rel_nonempty P : forall i j F G sl tl, Rel P i j F G sl tl -> G <> [] -> F <> [].
Proof. intros i j F0 G0 sl tl A. destruct A; [auto|discriminate|discriminate]. Qed.

Lemma ends_alike st tt : hist1 st -> hist2 tt -> alike st tt -> continues cfg st = false ->
  match finish (loss prior) st, finish (loss prior) tt with
  | Ok a, Ok b => a = st /\ b = tt
  | Raise e, Raise e' => e = e'
  | _, _ => False
  end.
Proof.
  intros H1 H2 A C. pose proof A as (Sp & Rl & L). pose proof Sp as (P1 & P2 & P3 & P4 & P5 & P6).
  unfold finish. rewrite P3, P5. destruct (Nat.eq_dec (t_iter st) 0) as [Z|Z].
  - rewrite (reached_zero1 st H1 Z). rewrite (reached_zero tt H2 ltac:(rewrite P2; exact Z)). cbn [init_state t_feats].
    pose proof (rel_nonempty _ _ _ _ _ _ _ Hstart HG) as HF. destruct F as [|f F0]; [contradiction|]. destruct G as [|g G0]; [contradiction|]. reflexivity.
  - rewrite (rel_fitted _ _ _ _ _ _ _ Rl).
    + destruct (forallb _ _); [|reflexivity]. destruct (_ && _); auto.
    + intros [O1|(O1 & O2 & O3)]; [contradiction|]. unfold continues, check_stop, veto_hierarchical in C. rewrite O1, (proj2 (Nat.leb_le _ _) O3) in C.
      cbn [andb negb] in C. rewrite andb_false_r in C. discriminate.
Qed.

Lemma loop_alike : forall fuel st tt, hist1 st -> hist2 tt -> alike st tt -> 0 <= t_delta st -> 0 <= t_delta tt ->
  match loop cfg F calc1 smooth1 calib1 rate1 loss fuel (loss prior) st, loop cfg G calc2 smooth2 calib2 rate2 loss fuel (loss prior) tt with
  | Some (Ok a), Some (Ok b) => t_iter b = t_iter a
  | Some (Raise e), Some (Raise e') => e = e'
  | None, None => True
  | _, _ => False
  end.
Proof.
  induction fuel as [|fuel IH]; intros st tt H1 H2 A D1 D2; pose proof A as (Sp & _ & _); cbn [loop]; rewrite <- (continues_same st tt Sp D1 D2);
    destruct (continues cfg st) eqn:C; auto.
  - pose proof (ends_alike st tt H1 H2 A C) as E. destruct (finish (loss prior) st), (finish (loss prior) tt); try contradiction; auto.
    destruct E as (-> & ->). apply Sp.
  - pose proof (continues_same st tt Sp D1 D2) as C2. rewrite C in C2. symmetry in C2.
    pose proof (step_related st tt A) as R0.
    destruct (iter1 st) as [st'|e] eqn:E1; destruct (iter2 tt) as [tt'|e'] eqn:E2; try contradiction.
    + apply IH; [eapply reached_next; eauto|eapply reached_next; eauto|exact R0|eapply iter_delta; eauto|eapply iter_delta; eauto].
    + destruct R0 as ((W1 & W2 & W3) & Dv). destruct Hhz as [Hz|[Hz|Hz]]; try congruence.
      rewrite (Hz tt') in Dv; [discriminate|]. eapply reached_next; eauto.
    + exact R0.
  - pose proof (ends_alike st tt H1 H2 A C) as E. destruct (finish (loss prior) st), (finish (loss prior) tt); try contradiction; auto.
    destruct E as (-> & ->). apply Sp.
Qed.
Theorem fit_alike fuel :
  match fit_main cfg F calc1 smooth1 calib1 rate1 loss fuel prior, fit_main cfg G calc2 smooth2 calib2 rate2 loss fuel prior with
  | Some (Ok a), Some (Ok b) => t_iter b = t_iter a
  | Some (Raise e), Some (Raise e') => e = e'
  | None, None => True
  | _, _ => False
  end.
Proof. unfold fit_main. apply loop_alike; [apply reached_start|apply reached_start|exact start_alike|cbn; lra|cbn; lra]. Qed.
End Steps.
End Silent.
