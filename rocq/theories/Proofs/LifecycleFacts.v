(** Facts about the estimator's methods on data frames. *)
From Coq Require Import List Bool Reals String Lra Lia.
From Verif.Model Require Import Num LexBins Train Link Frames Lifecycle.
From Verif.Spec Require Import LifecycleSpec.
From Verif.Proofs Require Import TrainFacts LinkFacts FrameFacts.
Import ListNotations.
Local Open Scope R_scope.

Lemma put_new {A} (X : list (label * A)) o v : ~ In o (map fst X) -> put_column X o v = X ++ [(o, v)].
Proof.
  induction X as [|[c w] r IH]; cbn [put_column map fst In app]; auto.
  intro H. rewrite label_eqb_neq by intuition. rewrite IH by intuition. reflexivity.
Qed.
Lemma has_column_iff X c : has_column X c = true <-> In c (columns_of X).
Proof.
  unfold has_column. rewrite existsb_exists. split.
  - intros (d & H & E). apply label_eqb_iff in E. subst. exact H.
  - intro H. exists c. split; [exact H|apply label_eqb_refl].
Qed.
Lemma has_column_false X c : has_column X c = false <-> ~ In c (columns_of X).
Proof. rewrite <- has_column_iff. destruct (has_column X c); intuition congruence. Qed.
Lemma falsy_named c : falsy c = false <-> named c.
Proof.
  unfold named. destruct c as [s|n]; cbn [falsy].
  - rewrite String.eqb_neq. split; [intro H; split; congruence|intros [H _]; congruence].
  - rewrite PeanoNat.Nat.eqb_neq. split; [intro H; split; congruence|intros [_ H]; congruence].
Qed.

Section Estimators.
Context {M : Type}.
Variable train : list column -> list column -> column -> option (M * list R).
Variable score : M -> list column -> list R.
Notation estimator := (estimator M).
Notation fit_predict := (fit_predict M train).
Notation fit := (fit M train).
Notation fit_transform := (fit_transform M train).
Notation predict := (predict M score).
Notation transform := (transform M score).

Lemma check_ok (e : estimator) X o : check_output M e X = LOk o <->
  e_output M e = Some o /\ named o /\ ~ In o (columns_of X).
Proof.
  unfold check_output. destruct (e_output M e) as [c|]; [|split; [discriminate|intros [? _]; discriminate]].
  destruct (falsy c) eqn:F.
  - split; [discriminate|]. intros (E & N & _). inversion E; subst. apply falsy_named in N. congruence.
  - destruct (has_column X c) eqn:Hc.
    + split; [discriminate|]. intros (E & _ & N). inversion E; subst. apply has_column_iff in Hc. contradiction.
    + split.
      * intro E. inversion E; subst. split; [reflexivity|]. split; [apply falsy_named; exact F|apply has_column_false; exact Hc].
      * intros (E & _). inversion E; subst. reflexivity.
Qed.

Lemma after_other (e : estimator) X : e_kind M e <> DispersionModel -> after_prior M e X = X.
Proof. intro H. unfold after_prior. destruct (e_kind M e); congruence. Qed.

Lemma fit_predict_ok (e : estimator) X y p e' X' : fit_predict e X y = (LOk p, e', X') ->
  exists extra ws cols m scores, fit_columns M e (groups_for M e X) X = Some (ws, cols) /\
    train (extra ++ ws) cols y = Some (m, scores) /\
    extra = match e_kind M e with DispersionModel => opt_list (e_mu M e) | _ => [] end /\
    p = unlinked (e_kind M e) scores /\
    e' = with_state M e (Some (groups_for M e X)) (Some m) (e_mu M e) /\ X' = after_prior M e X.
Proof.
  unfold Lifecycle.fit_predict. cbv zeta.
  destruct (fit_columns M e (groups_for M e X) X) as [[ws cols]|]; [|discriminate].
  assert (G : forall extra X0, run_training M train e (groups_for M e X) (extra ++ ws) cols X0 y = (LOk p, e', X') ->
     X0 = after_prior M e X -> extra = match e_kind M e with DispersionModel => opt_list (e_mu M e) | _ => [] end ->
     exists extra ws0 cols0 m scores, Some (ws, cols) = Some (ws0, cols0) /\
      train (extra ++ ws0) cols0 y = Some (m, scores) /\
      extra = match e_kind M e with DispersionModel => opt_list (e_mu M e) | _ => [] end /\
      p = unlinked (e_kind M e) scores /\
      e' = with_state M e (Some (groups_for M e X)) (Some m) (e_mu M e) /\ X' = after_prior M e X).
  { intros extra X0 H EX EE. unfold run_training in H.
    destruct (train (extra ++ ws) cols y) as [[m scores]|] eqn:T; [|discriminate]. injection H as H1 H2 H3.
    exists extra, ws, cols, m, scores. subst. auto 10. }
  destruct (e_kind M e) eqn:K.
  - intro H. apply (G [] X H); [symmetry; apply after_other; congruence|reflexivity].
  - intro H. apply (G [] X H); [symmetry; apply after_other; congruence|reflexivity].
  - intro H. apply (G [] X H); [symmetry; apply after_other; congruence|reflexivity].
  - destruct (e_mu M e) as [mu|] eqn:Mu; [|discriminate].
    intro H. apply (G [mu] _ H); reflexivity.
  - destruct external; [discriminate|].
    intro H. apply (G [] X H); [symmetry; apply after_other; congruence|reflexivity].
Qed.

Lemma after_columns (e : estimator) X : columns_of (after_prior M e X) = columns_of X.
Proof.
  unfold after_prior. destruct (e_kind M e); try reflexivity. destruct (e_prior M e) as [c|]; [|reflexivity].
  destruct (get_column X c) as [v|] eqn:G; [|reflexivity].
  apply put_labels. change c with (fst (c, v)). apply in_map, get_in. exact G.
Qed.

Lemma fit_transform_adds (e : estimator) X y R0 e' X' : e_kind M e <> DispersionModel ->
  fit_transform e X y = (LOk R0, e', X') ->
  exists o ws cols m scores, e_output M e = Some o /\ ~ In o (columns_of X) /\
    fit_columns M e (groups_for M e X) X = Some (ws, cols) /\ train ws cols y = Some (m, scores) /\
    e_model M e' = Some m /\
    R0 = with_column X o (map (fun s => Some (unlink_func (link_of (e_kind M e)) s)) scores) /\ X' = R0.
Proof.
  intros K H. unfold Lifecycle.fit_transform in H.
  destruct (check_output M e X) as [o|err] eqn:C; [|discriminate]. apply check_ok in C. destruct C as (C1 & C2 & C3).
  destruct (fit_predict e X y) as [[[p|err] e1] X1] eqn:F; [|discriminate]. injection H as H1 H2 H3.
  destruct (fit_predict_ok _ _ _ _ _ _ F) as (extra & ws & cols & m & scores & A1 & A2 & A3 & A4 & A5 & A6).
  rewrite after_other in A6 by exact K. subst X1.
  assert (E0 : extra = []) by (rewrite A3; destruct (e_kind M e); congruence). rewrite E0 in A2. cbn [app] in A2. rewrite put_new in H1, H3 by exact C3. exists o, ws, cols, m, scores.
  split; [exact C1|]. split; [exact C3|]. split; [exact A1|]. split; [exact A2|].
  split; [rewrite <- H2, A5; reflexivity|]. split; [rewrite <- H1, A4; reflexivity|congruence].
Qed.

Lemma transform_adds (e : estimator) X n R0 X' : e_kind M e <> DispersionModel -> transform e X n = (LOk R0, X') ->
  exists o p, e_output M e = Some o /\ ~ In o (columns_of X) /\ fst (predict e X n) = LOk p /\
    R0 = with_column X o p /\ X' = R0.
Proof.
  intros K H. unfold Lifecycle.transform in H.
  destruct (check_output M e X) as [o|err] eqn:C; [|discriminate]. apply check_ok in C. destruct C as (C1 & C2 & C3).
  destruct (predict e X n) as [[p|err] X1] eqn:P; [|discriminate]. injection H as H1 H2.
  assert (X1 = X).
  { unfold Lifecycle.predict in P. destruct (e_model M e); [|congruence].
    destruct (read_columns X _); [|congruence]. rewrite after_other in P by exact K. congruence. }
  subst X1. exists o, p. rewrite put_new in H1, H2 by exact C3. cbn [fst].
  split; [exact C1|]. split; [exact C3|]. split; [reflexivity|]. split; [symmetry; exact H1|congruence].
Qed.

Lemma transform_works (e : estimator) X n o p : e_output M e = Some o -> named o -> ~ In o (columns_of X) ->
  fst (predict e X n) = LOk p -> exists R0, fst (transform e X n) = LOk R0.
Proof.
  intros H1 H2 H3 H4. unfold Lifecycle.transform. rewrite (proj2 (check_ok e X o)) by auto.
  destruct (predict e X n) as [[q|err] X1]; cbn [fst] in H4; [|discriminate]. eexists; reflexivity.
Qed.

Lemma output_guard (e : estimator) X : (e_output M e = None \/ exists o, e_output M e = Some o /\ In o (columns_of X)) ->
  (forall y, exists err, fit_transform e X y = (LErr err, e, X)) /\
  (forall n, exists err, transform e X n = (LErr err, X)).
Proof.
  intro H. assert (E : exists err, check_output M e X = LErr err).
  { destruct (check_output M e X) as [o|err] eqn:C; [|exists err; reflexivity].
    apply check_ok in C. destruct C as (C1 & _ & C3). destruct H as [H|(o' & H & I)]; [congruence|].
    assert (o' = o) by congruence. subst. contradiction. }
  destruct E as [err E]. unfold Lifecycle.fit_transform, Lifecycle.transform. rewrite E.
  split; intros; exists err; reflexivity.
Qed.

Lemma transform_twice (e : estimator) X n n' R0 X' : transform e X n = (LOk R0, X') -> exists err, transform e X' n' = (LErr err, X').
Proof.
  intro H. unfold Lifecycle.transform in H. destruct (check_output M e X) as [o|err] eqn:C; [|discriminate].
  apply check_ok in C. destruct C as (C1 & C2 & C3).
  destruct (predict e X n) as [[p|err] X1]; [|discriminate]. injection H as H1 H2.
  apply (output_guard e X'). right. exists o. split; [exact C1|]. subst X'.
  unfold columns_of. change o with (fst (o, p)). apply in_map. apply get_in. rewrite get_put, label_eqb_refl. reflexivity.
Qed.

Lemma groups_again (e : estimator) g m mu X : groups_for M (with_state M e (Some g) m mu) X = g.
Proof. reflexivity. Qed.
Lemma predict_reads_state (e : estimator) g0 m mu g : predict_reads M (with_state M e g0 m mu) g = predict_reads M e g.
Proof. reflexivity. Qed.

Lemma predict_again (e : estimator) X y p e' X' n : reproduces train score ->
  e_kind M e <> DispersionModel -> fit_predict e X y = (LOk p, e', X') ->
  predict e' X n = (LOk (map (post (e_kind M e)) p), X).
Proof.
  intros Hr K F. destruct (fit_predict_ok _ _ _ _ _ _ F) as (extra & ws & cols & m & scores & A1 & A2 & A3 & A4 & A5 & A6).
  subst e'. unfold Lifecycle.predict. cbn [e_model with_state]. rewrite groups_again, predict_reads_state.
  unfold fit_columns in A1. destruct (read_columns X (opt_list (e_weight M e))); [|discriminate].
  destruct (read_columns X (predict_reads M e (groups_for M e X))) as [cols'|]; [|discriminate].
  injection A1 as A1 A1'. subst cols'. rewrite (Hr _ _ _ _ _ A2), A4. cbn [e_kind with_state].
  unfold after_prior. cbn [e_kind with_state]. destruct (e_kind M e); try reflexivity. congruence.
Qed.

Lemma fit_transform_parts (e : estimator) X y R0 e' X' : e_kind M e <> DispersionModel -> fit_transform e X y = (LOk R0, e', X') ->
  exists o p, e_output M e = Some o /\ named o /\ ~ In o (columns_of X) /\ fit_predict e X y = (LOk p, e', X) /\
    R0 = X ++ [(o, p)] /\ e_output M e' = Some o.
Proof.
  intros K H. unfold Lifecycle.fit_transform in H.
  destruct (check_output M e X) as [o|err] eqn:C; [|discriminate]. apply check_ok in C. destruct C as (C1 & C2 & C3).
  destruct (fit_predict e X y) as [[[p|err] e1] X1] eqn:F; [|discriminate]. injection H as H1 H2 H3.
  destruct (fit_predict_ok _ _ _ _ _ _ F) as (extra & ws & cols & m & scores & A1 & A2 & A3 & A4 & A5 & A6).
  rewrite after_other in A6 by exact K. subst X1. exists o, p.
  rewrite put_new in H1 by exact C3. subst e1. subst e'. cbn [e_output with_state].
  split; [exact C1|]. split; [exact C2|]. split; [exact C3|]. split; [reflexivity|]. split; [congruence|exact C1].
Qed.

Lemma transform_after (e : estimator) X y R0 e' X' n : reproduces train score -> e_kind M e <> DispersionModel ->
  fit_transform e X y = (LOk R0, e', X') ->
  exists o p, R0 = X ++ [(o, p)] /\ p = map Some (map (unlink_func (link_of (e_kind M e))) (map (fun v => match v with Some s => match link_func (link_of (e_kind M e)) s with Some l => l | None => 0 end | None => 0 end) p)) /\
   transform e' X n = (LOk (X ++ [(o, map (post (e_kind M e)) p)]), X ++ [(o, map (post (e_kind M e)) p)]).
Proof.
  intros Hr K H. destruct (fit_transform_parts _ _ _ _ _ _ K H) as (o & p & A1 & A2 & A3 & A4 & A5 & A6).
  exists o, p. split; [exact A5|]. split.
  - destruct (fit_predict_ok _ _ _ _ _ _ A4) as (extra & ws & cols & m & scores & B1 & B2 & B3 & B4 & B5 & B6).
    rewrite B4. unfold unlinked. rewrite !map_map. apply map_ext. intro s. rewrite link_unlink. reflexivity.
  - unfold Lifecycle.transform. rewrite (proj2 (check_ok e' X o)) by auto.
    rewrite (predict_again e X y p e' X n Hr K A4). rewrite put_new by exact A3. reflexivity.
Qed.

Lemma agree (e : estimator) X y R0 e' X' n l : reproduces train score -> e_kind M e = Regressor l ->
  fit_transform e X y = (LOk R0, e', X') -> fst (transform e' X n) = LOk R0.
Proof.
  intros Hr K H. destruct (transform_after e X y R0 e' X' n Hr) as (o & p & A1 & A2 & A3); [congruence|exact H|].
  rewrite A3. cbn [fst]. rewrite K, A1. cbn [post]. rewrite map_id. reflexivity.
Qed.
Lemma agree_locpoisson (e : estimator) X y R0 e' X' n : reproduces train score -> e_kind M e = LocPoisson ->
  fit_transform e X y = (LOk R0, e', X') ->
  (fst (transform e' X n) = LOk R0 <->
   forall o v s, In (o, v) R0 -> e_output M e = Some o -> In (Some s) v -> 0 <= s).
Proof.
  intros Hr K H. destruct (transform_after e X y R0 e' X' n Hr) as (o & p & A1 & A2 & A3); [congruence|exact H|].
  assert (KD : e_kind M e <> DispersionModel) by congruence.
  destruct (fit_transform_parts _ _ _ _ _ _ KD H) as (o' & p' & B1 & B2 & B3 & B4 & B5 & B6).
  assert (o' = o /\ p' = p) as [-> ->].
  { rewrite A1 in B5. apply app_inj_tail in B5. destruct B5 as [_ B5]. inversion B5. auto. }
  rewrite A3. cbn [fst]. rewrite K in *. rewrite A1. split.
  - intros E o' v s I Eo Is. injection E as E. apply app_inv_head in E. injection E as E.
    assert (o' = o) by congruence. subst o'.
    assert (v = p).
    { apply in_app_or in I. destruct I as [I|[I|[]]]; [|congruence].
      exfalso. apply B3. unfold columns_of. change o with (fst (o, v)). apply in_map. exact I. }
    subst v. destruct (Rle_lt_dec 0 s) as [|L]; auto. exfalso.
    apply In_nth_error in Is. destruct Is as [i Is].
    assert (Q : nth_error (map (post LocPoisson) p) i = Some (post LocPoisson (Some s))) by (apply map_nth_error; exact Is).
    rewrite E, Is in Q. cbn [post] in Q. rewrite (proj2 (Rltb_false 0 s)) in Q by lra. inversion Q. lra.
  - intro Hs. f_equal. f_equal. f_equal. f_equal.
    transitivity (map (fun v : option R => v) p); [|apply map_id]. apply map_ext_in. intros v Iv.
    rewrite A2 in Iv. apply in_map_iff in Iv. destruct Iv as (s & <- & Iv). cbn [post].
    destruct (Rltb 0 s) eqn:L; auto. apply Rltb_false in L. f_equal.
    assert (0 <= s); [|lra].
    apply (Hs o p s); [apply in_or_app; right; left; reflexivity|exact B1|].
    rewrite A2. apply in_map. exact Iv.
Qed.
Lemma classifier_differs (e : estimator) X y R0 e' X' n R1 : reproduces train score -> e_kind M e = Classifier ->
  fit_transform e X y = (LOk R0, e', X') -> fst (transform e' X n) = LOk R1 ->
  forall o v, In (o, v) R0 -> e_output M e = Some o -> v <> [] -> R1 <> R0.
Proof.
  intros Hr K H T o v I Eo Nv.
  destruct (transform_after e X y R0 e' X' n Hr) as (o1 & p & A1 & A2 & A3); [congruence|exact H|].
  assert (KD : e_kind M e <> DispersionModel) by congruence.
  destruct (fit_transform_parts _ _ _ _ _ _ KD H) as (o' & p' & B1 & B2 & B3 & B4 & B5 & B6).
  assert (o' = o1 /\ p' = p) as [-> ->].
  { rewrite A1 in B5. apply app_inj_tail in B5. destruct B5 as [_ B5]. inversion B5. auto. }
  assert (o1 = o) by congruence. subst o1.
  assert (v = p).
  { rewrite A1 in I. apply in_app_or in I. destruct I as [I|[I|[]]]; [|congruence].
    exfalso. apply B3. unfold columns_of. change o with (fst (o, v)). apply in_map. exact I. }
  subst v. rewrite A3 in T. cbn [fst] in T. injection T as T. rewrite <- T, A1. intro E.
  apply app_inv_head in E. injection E as E. rewrite K in *. cbn [link_of] in A2. clear A3 B4 T A1 B5 H I.
  destruct p as [|v r]; [congruence|]. cbn [map] in E, A2. injection E as E _.  injection A2 as A2 _.
  set (w := match v with Some s => _ | None => 0 end) in A2. rewrite A2 in E. cbn [post] in E.
  pose proof (unlink_range Logit w) as Rg. cbn [unlink_func] in Rg.
  remember (1 / (1 + exp (- w))) as u eqn:Hu. clear Hu.
  destruct (Rltb (1 / 2) u); injection E; intro; lra.
Qed.

Lemma dispersion_fails (e : estimator) X y : e_kind M e = DispersionModel -> e_mu M e = None ->
  exists err, fst (fst (fit_transform e X y)) = LErr err.
Proof.
  intros K Mu. unfold Lifecycle.fit_transform. destruct (check_output M e X) as [o|err]; [|exists err; reflexivity].
  unfold Lifecycle.fit_predict. cbv zeta. rewrite K, Mu.
  destruct (fit_columns M e (groups_for M e X) X) as [[ws cols]|]; eexists; reflexivity.
Qed.
Lemma fit_predict_mu (e : estimator) X y p e' X' : fit_predict e X y = (LOk p, e', X') -> e_kind M e' = e_kind M e /\ e_output M e' = e_output M e.
Proof.
  unfold Lifecycle.fit_predict, run_training. cbv zeta.
  destruct (fit_columns M e (groups_for M e X) X) as [[ws cols]|]; [|discriminate].
  destruct (e_kind M e) as [l| | | |[|]] eqn:K; try discriminate;
    try destruct (e_mu M e) as [mu|]; try discriminate;
    destruct (train _ _ _) as [[m scores]|]; try discriminate; intros [= <- <- <-]; cbn; auto.
Qed.
Lemma dispersion_fitted_fails (e : estimator) X y e' X' : e_kind M e = DispersionModel -> fit e X y = (None, e', X') ->
  forall X2 y2, exists err, fst (fst (fit_transform e' X2 y2)) = LErr err.
Proof.
  intros K H X2 y2. apply dispersion_fails; unfold Lifecycle.fit in H; rewrite K in H;
    destruct (get_column X (e_mean M e)) as [mu|]; try discriminate;
    destruct (Lifecycle.fit_predict _ _ _ _ _) as [[[p|err] e1] X1] eqn:F; try discriminate; injection H as <- <-.
  - apply fit_predict_mu in F. cbn in F |- *. destruct F as [F _]. now rewrite F.
  - reflexivity.
Qed.
Lemma fit_groups (e : estimator) X y g : e_groups M e = None -> e_groups M (snd (fst (fit e X y))) = Some g ->
  forall c, In c g <-> exists n, c = [n] /\ In n (columns_of X) /\ e_prior M e <> Some n /\ e_weight M e <> Some n.
Proof.
  intros G H. assert (E : g = groups_for M e X).
  { assert (FP : forall e0, groups_for M e0 X = groups_for M e X ->
        e_groups M (snd (fst (fit_predict e0 X y))) = Some (groups_for M e X)).
    { intros e0 E0. unfold Lifecycle.fit_predict, run_training. cbv zeta. rewrite E0.
      destruct (fit_columns M e0 (groups_for M e X) X) as [[ws cols]|]; [|reflexivity].
      destruct (e_kind M e0) as [l| | | |[|]]; try reflexivity;
        try destruct (e_mu M e0) as [mu|]; try reflexivity; now destruct (train _ _ _) as [[m scores]|]. }
    unfold Lifecycle.fit in H. destruct (e_kind M e) as [l| | | |b] eqn:K.
    all: try (pose proof (FP e eq_refl) as F; destruct (Lifecycle.fit_predict _ _ _ _ _) as [[[p|err] e1] X1]; cbn in F, H; congruence).
    - destruct (get_column X (e_mean M e)) as [mu|]; [|cbn in H; congruence].
      pose proof (FP (with_state M e (e_groups M e) (e_model M e) (Some mu)) eq_refl) as F.
      destruct (Lifecycle.fit_predict _ _ _ _ _) as [[[p|err] e1] X1]; cbn in F, H; congruence.
    - unfold run_training in H. cbv zeta in H.
      destruct (fit_columns M e (groups_for M e X) X) as [[ws cols]|]; [|cbn in H; congruence].
      destruct (train _ _ _) as [[m scores]|]; cbn in H; congruence. }
  intro c. rewrite E. unfold groups_for. rewrite G, in_map_iff. split.
  - intros (n & <- & I). apply filter_In in I. destruct I as [I B]. apply andb_true_iff in B. destruct B as [B1 B2].
    apply negb_true_iff in B1, B2. exists n. split; [reflexivity|]. split; [exact I|].
    split; intro Z; apply excluded_iff in Z; congruence.
  - intros (n & -> & I & N1 & N2). exists n. split; [reflexivity|]. apply filter_In. split; [exact I|].
    rewrite <- excluded_iff in N1, N2. destruct (excluded (e_prior M e) n), (excluded (e_weight M e) n); cbn; congruence.
Qed.
Lemma price_fails (e : estimator) X y : e_kind M e = PriceModel true ->
  exists err, fst (fst (fit_transform e X y)) = LErr err.
Proof.
  intros K. unfold Lifecycle.fit_transform. destruct (check_output M e X) as [o|err]; [|exists err; reflexivity].
  unfold Lifecycle.fit_predict. cbv zeta. rewrite K.
  destruct (fit_columns M e (groups_for M e X) X) as [[ws cols]|]; eexists; reflexivity.
Qed.

(** ** required columns *)
Lemma get_only cs X c : In c cs -> get_column (only cs X) c = get_column X c.
Proof.
  intro I. induction X as [|[d v] r IH]; [reflexivity|]. unfold only in *. cbn [filter fst].
  destruct (existsb (label_eqb d) cs) eqn:E; cbn [get_column]; rewrite IH; [reflexivity|].
  rewrite label_eqb_neq; auto. intro; subst d.
  assert (existsb (label_eqb c) cs = true) by (apply existsb_exists; exists c; split; [exact I|apply label_eqb_refl]). congruence.
Qed.
Lemma read_only cs X ls : (forall c, In c ls -> In c cs) -> read_columns (only cs X) ls = read_columns X ls.
Proof.
  induction ls as [|c r IH]; intro H; cbn [read_columns]; [reflexivity|].
  rewrite get_only by (apply H; left; reflexivity). rewrite IH by (intros d I; apply H; right; exact I). reflexivity.
Qed.
Lemma reads_required (e : estimator) g c : e_groups M e = Some g -> In c (predict_reads M e g) -> In c (required_columns M e).
Proof.
  intros G I. unfold required_columns, predict_reads, price_columns in *. rewrite G.
  apply in_app_or in I. destruct I as [I|I].
  - apply in_or_app. right. apply in_or_app. right. apply in_or_app. right. destruct (e_kind M e); auto.
  - apply in_app_or in I. destruct I as [I|I].
    + apply in_or_app. right. apply in_or_app. left. exact I.
    + apply in_or_app. right. apply in_or_app. right. apply in_or_app. left. exact I.
Qed.
Lemma weight_required (e : estimator) c : In c (opt_list (e_weight M e)) -> In c (required_columns M e).
Proof. intro I. unfold required_columns. apply in_or_app. left. exact I. Qed.
Lemma fit_columns_only (e : estimator) g X : e_groups M e = Some g ->
  fit_columns M e g (only (required_columns M e) X) = fit_columns M e g X.
Proof.
  intro G. unfold fit_columns. rewrite !read_only; [reflexivity| |].
  - intros c I. apply (reads_required e g); auto.
  - intros c I. apply weight_required; auto.
Qed.
Lemma fit_required (e : estimator) g X y : e_groups M e = Some g -> e_kind M e <> DispersionModel ->
  fst (fit e (only (required_columns M e) X) y) = fst (fit e X y).
Proof.
  intros G K. unfold Lifecycle.fit, Lifecycle.fit_predict, groups_for. cbv zeta. rewrite G.
  rewrite (fit_columns_only e g X G).
  destruct (fit_columns M e g X) as [[ws cols]|];
  destruct (e_kind M e) as [l| | | |[|]]; try congruence; try reflexivity;
    unfold run_training; destruct (train ws cols y) as [[m scores]|]; reflexivity.
Qed.
Lemma predict_required (e : estimator) g X n : e_groups M e = Some g ->
  fst (predict e (only (required_columns M e) X) n) = fst (predict e X n).
Proof.
  intros G. unfold Lifecycle.predict, groups_for. rewrite G.
  destruct (e_model M e) as [m|].
  - rewrite read_only by (intros c I; apply (reads_required e g); auto).
    destruct (read_columns X (predict_reads M e g)); reflexivity.
  - cbn [fst]. unfold unfitted_predict. rewrite read_only.
    2: { intros c I. apply (reads_required e g); auto. unfold predict_reads in *. rewrite in_app_iff in *.
         destruct I as [I|I]; [left; exact I|right]. rewrite in_app_iff in *. cbn [List.concat In] in I. tauto. }
    destruct (negb (features_set M e)); [reflexivity|].
    destruct (read_columns X (predict_reads M e [])); [|reflexivity].
    rewrite G. destruct g as [|g0 gs]; [|reflexivity].
    destruct (e_prior M e) as [c|] eqn:P; [|reflexivity].
    rewrite get_only; [reflexivity|]. unfold required_columns. rewrite P. apply in_or_app. right. apply in_or_app. left. left. reflexivity.
Qed.
Lemma read_missing X ls c : In c ls -> ~ In c (columns_of X) -> read_columns X ls = None.
Proof.
  induction ls as [|d r IH]; [contradiction|]. intros [->|I] N; cbn [read_columns].
  - rewrite (proj2 (get_none X c)) by exact N. reflexivity.
  - rewrite IH by auto. destruct (get_column X d); reflexivity.
Qed.
Lemma fit_needs (e : estimator) g X y c : e_groups M e = Some g -> In c (required_columns M e) -> ~ In c (columns_of X) ->
  exists err, fst (fst (fit e X y)) = Some err.
Proof.
  intros G I N.
  assert (F : forall mu, fit_columns M (with_state M e (Some g) (e_model M e) mu) g X = None /\ fit_columns M e g X = None).
  { intro mu. assert (fit_columns M e g X = None).
    { unfold fit_columns, required_columns in *. rewrite G in I. apply in_app_or in I. destruct I as [I|I].
      - rewrite (read_missing X _ c I N). reflexivity.
      - destruct (read_columns X (opt_list (e_weight M e))); [|reflexivity].
        rewrite (read_missing X (predict_reads M e g) c); auto. unfold predict_reads, price_columns.
        rewrite !in_app_iff in *. destruct (e_kind M e); cbn [In] in *; tauto. }
    split; assumption. }
  unfold Lifecycle.fit. destruct (e_kind M e) as [l| | | |x] eqn:K.
  1-3: unfold Lifecycle.fit_predict, groups_for; cbv zeta; rewrite G, (proj2 (F None)); eexists; reflexivity.
  - destruct (get_column X (e_mean M e)) as [mu|]; [|eexists; reflexivity].
    unfold Lifecycle.fit_predict, groups_for. cbv zeta. cbn [e_groups with_state]. rewrite G, (proj1 (F (Some mu))). eexists; reflexivity.
  - unfold groups_for. rewrite G, (proj2 (F None)). eexists; reflexivity.
Qed.
Lemma dispersion_required (e : estimator) g X y : e_kind M e = DispersionModel -> e_groups M e = Some g ->
  ~ In (e_mean M e) (required_columns M e) ->
  fst (fst (fit e (only (required_columns M e) X) y)) = Some MissingColumn.
Proof.
  intros K G N. unfold Lifecycle.fit. rewrite K.
  assert (E : get_column (only (required_columns M e) X) (e_mean M e) = None).
  { apply get_none. intro I. apply in_map_iff in I. destruct I as ([d v] & Ed & I). cbn in Ed. subst d.
    unfold only in I. apply filter_In in I. destruct I as [_ I]. cbn [fst] in I. apply existsb_exists in I.
    destruct I as (d & I & E). apply label_eqb_iff in E. subst d. contradiction. }
  rewrite E. reflexivity.
Qed.

(** ** the frame after fit and predict *)
Lemma run_frame (e : estimator) g extra cols X y : snd (run_training M train e g extra cols X y) = X.
Proof. unfold run_training. destruct (train extra cols y) as [[m s]|]; reflexivity. Qed.
Lemma fit_predict_frame (e : estimator) X y : snd (fit_predict e X y) = after_prior M e X \/ snd (fit_predict e X y) = X.
Proof.
  unfold Lifecycle.fit_predict. cbv zeta. destruct (fit_columns M e (groups_for M e X) X) as [[ws cols]|]; [|right; reflexivity].
  destruct (e_kind M e) as [l| | | |[|]]; try (right; apply run_frame); try (right; reflexivity).
  left. destruct (e_mu M e); [apply run_frame|reflexivity].
Qed.
Lemma data_kept (e : estimator) X : e_kind M e <> DispersionModel \/ e_prior M e = None ->
  (forall y, snd (fit e X y) = X) /\ (forall n, snd (predict e X n) = X).
Proof.
  intro H.
  assert (A : forall g m mu, after_prior M (with_state M e g m mu) X = X).
  { intros g m mu. unfold after_prior. cbn [e_kind e_prior with_state]. destruct (e_kind M e); try reflexivity.
    destruct H as [H|H]; [congruence|]. rewrite H. reflexivity. }
  assert (P : forall g m mu y, snd (fit_predict (with_state M e g m mu) X y) = X).
  { intros g m mu y. destruct (fit_predict_frame (with_state M e g m mu) X y) as [E|E]; rewrite E; auto. }
  assert (W : e = with_state M e (e_groups M e) (e_model M e) (e_mu M e)) by (destruct e; reflexivity).
  split.
  - intro y. unfold Lifecycle.fit. destruct (e_kind M e) as [l| | | |x] eqn:K.
    1-3: pose proof (P (e_groups M e) (e_model M e) (e_mu M e) y) as Q; rewrite <- W in Q;
      destruct (fit_predict e X y) as [[[p|err] e'] X']; exact Q.
    + destruct (get_column X (e_mean M e)) as [mu|]; [|reflexivity].
      pose proof (P (e_groups M e) (e_model M e) (Some mu) y) as Q.
      destruct (fit_predict _ X y) as [[[p|err] e'] X']; exact Q.
    + cbv zeta. destruct (fit_columns M e (groups_for M e X) X) as [[ws cols]|]; [|reflexivity].
      pose proof (run_frame e (groups_for M e X) ws cols X y) as Q.
      destruct (run_training M train e (groups_for M e X) ws cols X y) as [[[p|err] e'] X']; exact Q.
  - intro n. pose proof (A (e_groups M e) (e_model M e) (e_mu M e)) as Q. rewrite <- W in Q. clear W.
    unfold Lifecycle.predict. destruct (e_model M e); [|reflexivity].
    destruct (read_columns X _); [|reflexivity]. exact Q.
Qed.
Lemma dispersion_clips (e : estimator) X c v n : e_kind M e = DispersionModel -> e_prior M e = Some c ->
  get_column X c = Some v -> (exists p, fst (predict e X n) = LOk p /\ e_model M e <> None) ->
  get_column (snd (predict e X n)) c = Some (map clip01 v).
Proof.
  intros K P G (p & Hp & Hm). unfold Lifecycle.predict in *. destruct (e_model M e); [|congruence].
  destruct (read_columns X _); [|discriminate]. cbn [snd]. unfold after_prior. rewrite K, P, G, get_put, label_eqb_refl. reflexivity.
Qed.

(** ** predict before fit *)
Lemma never_not_fitted (e : estimator) X n : e_model M e = None -> fst (predict e X n) <> LErr NotFittedError.
Proof.
  intro H. unfold Lifecycle.predict. rewrite H. cbn [fst]. unfold unfitted_predict. cbn [negb features_set].
  destruct (read_columns X _); [|discriminate].
  destruct (e_groups M e) as [[|g gs]|]; try discriminate;
    (destruct (e_prior M e) as [c|]; [destruct (get_column X c); discriminate|]);
    destruct (e_kind M e) as [[]| | | |]; cbn [link_of]; discriminate.
Qed.
Lemma unfitted_features (e : estimator) X n g gs : e_model M e = None -> e_groups M e = Some (g :: gs) ->
  exists err, fst (predict e X n) = LErr err.
Proof.
  intros H G. unfold Lifecycle.predict. rewrite H. cbn [fst]. unfold unfitted_predict. cbn [negb features_set].
  destruct (read_columns X _); [|eexists; reflexivity]. rewrite G. eexists; reflexivity.
Qed.
Lemma unfitted_prior (e : estimator) (X : dframe) n c (v : column) l : e_model M e = None -> e_groups M e = None -> e_kind M e = Regressor l ->
  e_prior M e = Some c -> get_column X c = Some v -> (forall p, In p v -> exists x s, p = Some x /\ link_func l x = Some s) ->
  fst (predict e X n) = LOk v.
Proof.
  intros H G K P E Hv. unfold Lifecycle.predict. rewrite H. cbn [fst]. unfold unfitted_predict. cbn [negb features_set].
  unfold predict_reads, price_columns. rewrite K, P. cbn [app opt_list List.concat read_columns]. rewrite E, G. f_equal.
  unfold prior_scores. rewrite map_map. cbn [link_of post]. transitivity (map (fun p : option R => p) v); [|apply map_id].
  apply map_ext_in. intros p I. destruct (Hv p I) as (x & s & -> & Es). cbn [link_option]. rewrite Es.
  f_equal. apply (unlink_link l x s Es).
Qed.
End Estimators.

(** ** Examples *)
Lemma copy_reproduces : reproduces copy_train copy_score.
Proof. intros extra inputs y m scores. unfold copy_train, copy_score. destruct y; [discriminate|]. congruence. Qed.
Local Open Scope string_scope.
Definition ex_est (k : kind) (o : option label) (p : option label) (g : option (list (list label))) : estimator (list column) :=
  {| e_kind := k; e_groups := g; e_weight := Some (LName "w"); e_prior := p; e_output := o; e_mean := LName "m";
     e_external := LName "x"; e_prior_exponent := None; e_model := None; e_mu := None |}.
Definition ex_X (a m : R) : dframe := [(LName "a", [Some a; Some 1]); (LName "w", [Some 1; Some 2]); (LName "m", [Some m; Some m])].
Lemma ex_fit_transform : exists e', fit_transform _ copy_train (ex_est (Regressor Identity) (Some (LName "p")) None (Some [[LName "a"]])) (ex_X (-3) 5) [Some 1; Some 2] =
  (LOk (with_column (ex_X (-3) 5) (LName "p") [Some (-3); Some 1]), e', with_column (ex_X (-3) 5) (LName "p") [Some (-3); Some 1]).
Proof. eexists. reflexivity. Qed.
Lemma ex_classifier : exists e', fit_transform _ copy_train (ex_est Classifier (Some (LName "p")) None (Some [[LName "a"]])) (ex_X (-3) 5) [Some 1; Some 2] =
  (LOk (with_column (ex_X (-3) 5) (LName "p") [Some (unlink_func Logit (-3)); Some (unlink_func Logit 1)]), e',
   with_column (ex_X (-3) 5) (LName "p") [Some (unlink_func Logit (-3)); Some (unlink_func Logit 1)]).
Proof. eexists. reflexivity. Qed.
Lemma locpoisson_differs : exists e X y R0 e' X' R1, reproduces copy_train copy_score /\ e_kind _ e = LocPoisson /\
  fit_transform (list column) copy_train e X y = (LOk R0, e', X') /\ fst (transform _ copy_score e' X (List.length y)) = LOk R1 /\ R1 <> R0.
Proof.
  exists (ex_est LocPoisson (Some (LName "p")) None (Some [[LName "a"]])), (ex_X (-3) 5), [Some 1; Some 2].
  do 4 eexists. split; [exact copy_reproduces|]. split; [reflexivity|]. split; [reflexivity|]. split; [reflexivity|].
  intro E. apply (f_equal (fun f => get_column f (LName "p"))) in E. cbn in E.
  rewrite (proj2 (Rltb_false 0 (-3))) in E by lra. injection E as E. lra.
Qed.
Lemma stale_mu : exists e X1 X2 y2 mu1 mu2 e1 X1' R0 e2 X2', e_kind _ e = DispersionModel /\
  fit (list column) copy_train e X1 [] = (Some Training, e1, X1') /\ get_column X1 (e_mean _ e) = Some mu1 /\
  get_column X2 (e_mean _ e) = Some mu2 /\ mu1 <> mu2 /\
  fit_transform _ copy_train e1 X2 y2 = (LOk R0, e2, X2') /\ (exists ws, e_model _ e2 = Some (mu1 :: ws)).
Proof.
  exists (ex_est DispersionModel (Some (LName "p")) None (Some [[LName "a"]])), (ex_X (-3) 5), (ex_X (-3) 7), [Some 1; Some 2].
  do 7 eexists. split; [reflexivity|]. split; [reflexivity|]. split; [reflexivity|]. split; [reflexivity|].
  split; [|split; [reflexivity|eexists; reflexivity]]. intro E. injection E as E. lra.
Qed.
Lemma falsy_output : exists e X n o p, e_output (list column) e = Some o /\ ~ In o (columns_of X) /\
  fst (predict _ copy_score e X n) = LOk p /\ fst (transform _ copy_score e X n) = LErr NotDefined.
Proof.
  exists (with_state _ (ex_est (Regressor Identity) (Some (LPos 0)) None (Some [[LName "a"]])) (Some [[LName "a"]]) (Some []) None).
  exists (ex_X 1 5), 2%nat. do 2 eexists. split; [reflexivity|]. split; [|split; reflexivity].
  cbn. intuition discriminate.
Qed.
Lemma ex_required : required_columns _ (ex_est DispersionModel (Some (LName "p")) None (Some [[LName "a"]])) = [LName "w"; LName "a"] /\
  fst (fst (fit _ copy_train (ex_est DispersionModel (Some (LName "p")) None (Some [[LName "a"]])) (ex_X 1 5) [Some 1; Some 2])) = None.
Proof. split; reflexivity. Qed.
Lemma ex_required_regressor :
  only (required_columns _ (ex_est (Regressor Log) (Some (LName "p")) None (Some [[LName "a"]]))) (ex_X 1 5) =
    [(LName "a", [Some 1; Some 1]); (LName "w", [Some 1; Some 2])] /\
  fst (fst (fit _ copy_train (ex_est (Regressor Log) (Some (LName "p")) None (Some [[LName "a"]])) (ex_X 1 5) [Some 1; Some 2])) = None.
Proof. split; reflexivity. Qed.
Lemma clips_example : exists e X c v X', e_kind (list column) e = DispersionModel /\
  predict (list column) copy_score e X 2 = (LOk [Some (unlink_func Logit 3); Some (unlink_func Logit 1)], X') /\
  get_column X c = Some v /\ get_column X' c <> Some v.
Proof.
  exists (with_state _ (ex_est DispersionModel (Some (LName "p")) (Some (LName "a")) (Some [[LName "w"]])) (Some [[LName "w"]]) (Some []) None).
  exists (ex_X 3 5), (LName "a"). do 2 eexists. split; [reflexivity|]. split; [reflexivity|]. split; [reflexivity|].
  cbn. intro E. injection E as E _. revert E. unfold Rmin, Rmax. destruct (Rle_dec 3 0); [lra|]. destruct (Rle_dec 3 1); lra.
Qed.
Lemma ex_unfitted : fst (predict (list column) copy_score (ex_est (Regressor Log) None (Some (LName "a")) None) (ex_X 2 5) 2) = LOk [Some 2; Some 1].
Proof.
  apply (unfitted_prior copy_score _ (ex_X 2 5) 2 (LName "a") [Some 2; Some 1] Log); try reflexivity.
  intros p [<-|[<-|[]]]; [exists 2, (ln 2)|exists 1, (ln 1)]; (split; [reflexivity|]); cbn [link_func];
    rewrite (proj2 (Rltb_iff 0 _)) by lra; reflexivity.
Qed.
