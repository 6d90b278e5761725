(** Training with observers. *)
From Coq Require Import ZArith List Bool Reals Lra Lia.
From Verif.Model Require Import Train Observers.
From Verif.Spec Require Import ObserverSpec.
Import ListNotations.
Local Open Scope R_scope.

Lemma hear_app {W} (watch : W -> call -> option W) a : forall w b,
  hear watch w (a ++ b) = match hear watch w a with None => None | Some w' => hear watch w' b end.
Proof. induction a as [|e a IH]; intros w b; cbn; auto. destruct (watch w e); auto. Qed.

Definition key (e : call) : Z * option nat := (e_pass e, e_feature e).

Section Observed.
Variable cfg : settings.
Variable features : list feature.
Variable calc : nat -> nat -> preds -> list R.
Variable smooth : nat -> nat -> preds -> list R -> nat -> option R.
Variable calib : nat -> list R -> list R.
Variable rate : nat -> nat -> R.
Variable loss : preds -> R.

Definition kept (before : list fstate) (r : outcome (list fstate * preds)) : outcome (list fstate * preds) :=
  match r with Raise e => Raise e | Ok (sl, p) => Ok (before ++ sl, p) end.
(** Positions, from [i] on, of groups trained in pass [it]. *)
Fixpoint visited (i : nat) (fl : list feature) (it : nat) : list nat :=
  match fl with [] => [] | f :: r => if skipped cfg f it then visited (S i) r it else i :: visited (S i) r it end.

Definition pass_call (it : nat) (shown : preds) (l : R) (e : call) : Prop :=
  e_pass e = Z.of_nat it /\ e_preds e = shown /\ e_loss e = l /\ exists sl, e_groups e = state_groups cfg features it sl.

Lemma pass_observed it isdiv diverging initial shown l : forall fl i before sl p, length fl = length sl -> exists calls,
  (forall W (watch : W -> call -> option W) w,
     observed_pass cfg features calc smooth calib rate loss watch i fl before sl it p isdiv diverging initial shown l w =
     match hear watch w calls with None => None | Some w' => Some (kept before (features_pass cfg calc smooth calib rate loss i fl sl it p isdiv diverging initial), w') end) /\
  Forall (pass_call it shown l) calls /\
  (forall r, features_pass cfg calc smooth calib rate loss i fl sl it p isdiv diverging initial = Ok r ->
     map key calls = map (fun j => (Z.of_nat it, Some j)) (visited i fl it) /\ length (fst r) = length fl).
Proof.
  induction fl as [|f fl IH]; intros i before [|s sl] p L; try discriminate L.
  - exists []. cbn. split; [intros; rewrite app_nil_r; reflexivity|]. split; [constructor|]. intros r E. injection E as <-. auto.
  - cbn in L. injection L as L. cbn [observed_pass features_pass visited]. destruct (skipped cfg f it) eqn:K.
    + destruct (IH (S i) (before ++ [{| s_fitted := s_fitted s; s_factors := s_factors s; s_old := s_factors s; s_agg := s_agg s; s_zero := s_zero s |}]) sl p L) as (calls & A & B & C).
      exists calls. split; [|split; [exact B|]].
      * intros W watch w. rewrite A. destruct (hear watch w calls); auto. destruct (features_pass _ _ _ _ _ _ _ _ _ _ _ _ _ _) as [[r q]|e]; cbn; auto. rewrite <- app_assoc. auto.
      * intros r E. destruct (features_pass _ _ _ _ _ _ _ _ _ _ _ _ _ _) as [[r' q]|e]; [|discriminate]. injection E as <-.
        destruct (C _ eq_refl) as [C1 C2]. split; auto. cbn in *. auto.
    + destruct (feature_iteration _ _ _ _ _ _ _ _ _ _ _ _ _ _) as [[s' p']|e] eqn:F.
      * destruct (IH (S i) (before ++ [s']) sl p' L) as (calls & A & B & C).
        set (e := {| e_pass := Z.of_nat it; e_feature := Some i; e_preds := shown; e_loss := l; e_delta := None; e_groups := state_groups cfg features it (before ++ s' :: sl) |}).
        exists (e :: calls). split; [|split].
        -- intros W watch w. cbn [hear]. fold e. destruct (watch w e) as [w'|]; auto. rewrite A. destruct (hear watch w' calls); auto.
           destruct (features_pass _ _ _ _ _ _ _ _ _ _ _ _ _ _) as [[r q]|]; cbn; auto. rewrite <- app_assoc. auto.
        -- constructor; auto. unfold pass_call, e. cbn. eauto 6.
        -- intros r E. destruct (features_pass _ _ _ _ _ _ _ _ _ _ _ _ _ _) as [[r' q]|]; [|discriminate]. injection E as <-.
           destruct (C _ eq_refl) as [C1 C2]. cbn [map]. split; [f_equal; auto|cbn in *; auto].
      * exists []. split; [intros; reflexivity|]. split; [constructor|]. intros r E. discriminate.
Qed.

Definition moved (shown : preds) (r : outcome state) : outcome (state * preds) :=
  match r with Raise e => Raise e | Ok st => Ok (st, shown) end.
Definition sized (st : state) : Prop := length (t_feats st) = length features.
Lemma removed_length : forall fl sl p r, length fl = length sl -> remove_preds fl sl p = Ok r -> length (fst r) = length sl.
Proof.
  induction fl as [|f fl IH]; intros [|s sl] p r L E; try discriminate L; cbn in E; [injection E as <-; auto|].
  destruct (s_agg s); [|discriminate]. destruct (remove_preds fl sl _) as [[r' q]|] eqn:Q; [|discriminate]. injection E as <-. cbn. f_equal.
  apply (IH _ _ (r', q)) in Q; auto.
Qed.
Lemma iteration_observed initial st shown : sized st -> t_loss st = loss shown -> exists calls shown',
  (forall W (watch : W -> call -> option W) w,
     observed_iteration cfg features calc smooth calib rate loss watch initial st shown w =
     match hear watch w calls with None => None | Some w' => Some (moved shown' (iteration cfg features calc smooth calib rate loss initial st), w') end) /\
  Forall (pass_call (t_iter st) shown (t_loss st)) calls /\ calls <> [] /\
  (forall st', iteration cfg features calc smooth calib rate loss initial st = Ok st' ->
     map key calls = (Z.of_nat (t_iter st), None) :: map (fun j => (Z.of_nat (t_iter st), Some j)) (visited 0 features (t_iter st)) /\
     t_iter st' = S (t_iter st) /\ sized st' /\ t_loss st' = loss shown').
Proof.
  intros Z L. unfold observed_iteration, iteration.
  destruct (pass_observed (t_iter st) (t_isdiv st) (t_diverging st) initial shown (t_loss st) features 0 [] (t_feats st) (t_preds st) (eq_sym Z)) as (calls & A & B & C).
  set (e := {| e_pass := Z.of_nat (t_iter st); e_feature := None; e_preds := shown; e_loss := t_loss st; e_delta := Some (t_delta st); e_groups := state_groups cfg features (t_iter st) (t_feats st) |}).
  set (fp := features_pass _ _ _ _ _ _ _ _ _ _ _ _ _ _) in *.
  exists (e :: calls), (match fp with Ok (_, p) => p | Raise _ => shown end). split; [|split; [|split; [discriminate|]]].
  - intros W watch w. cbn [hear]. destruct (watch w e) as [w0|]; auto. rewrite A. destruct (hear watch w0 calls) as [w1|]; auto.
    destruct fp as [[sl p]|er]; cbn [kept]; auto. rewrite app_nil_l. cbv zeta. destruct (is_diverged initial (loss p) && _); auto.
    destruct (if is_diverged initial (loss p) then _ else _) as [[sl' p']|]; auto.
  - constructor; auto. unfold pass_call, e. cbn. eauto 6.
  - intros st' E. destruct fp as [[sl p]|er]; [|discriminate]. destruct (C _ eq_refl) as [C1 C2]. cbn in C2.
    cbv zeta in E. destruct (is_diverged initial (loss p) && _); [discriminate|].
    destruct (if is_diverged initial (loss p) then _ else _) as [[sl' p']|] eqn:Q; [|discriminate]. injection E as <-.
    split; [cbn [map]; f_equal; auto|]. split; [reflexivity|]. split; [|reflexivity]. unfold sized. cbn [t_feats].
    destruct (is_diverged initial (loss p)).
    + apply (removed_length _ _ _ (sl', p')) in Q; cbn in *; congruence.
    + injection Q as <- <-. auto.
Qed.

(** The call after the loop. *)
Definition last_call (st : state) (e : call) : Prop :=
  e_pass e = (-1)%Z /\ e_feature e = None /\ e_loss e = t_loss st /\ e_delta e = Some (t_delta st) /\
  e_groups e = state_groups cfg features (t_iter st) (map prepared (t_feats st)).
Definition shows_loss (e : call) : Prop := e_loss e = loss (e_preds e).
Definition pass_groups (e : call) : Prop := (0 <= e_pass e)%Z -> exists sl, e_groups e = state_groups cfg features (Z.to_nat (e_pass e)) sl.
Lemma pass_call_good it shown l calls : l = loss shown -> Forall (pass_call it shown l) calls -> Forall (fun e => shows_loss e /\ pass_groups e) calls.
Proof.
  intros E. apply Forall_impl. intros e (P & Q & Lo & sl & G). split; [unfold shows_loss; congruence|].
  intros _. exists sl. rewrite P, Nat2Z.id. exact G.
Qed.

Lemma loop_observed initial : forall fuel st shown, sized st -> t_loss st = loss shown -> exists calls,
  (forall W (watch : W -> call -> option W) w,
     observed_loop cfg features calc smooth calib rate loss watch fuel initial st shown w =
     ends watch w calls (loop cfg features calc smooth calib rate loss fuel initial st)) /\
  Forall (fun e => shows_loss e /\ pass_groups e) calls /\
  (forall st', loop cfg features calc smooth calib rate loss fuel initial st = Some (Ok st') ->
     (t_iter st <= t_iter st')%nat /\ sized st' /\ continues cfg st' = false /\
     exists front e, calls = front ++ [e] /\ last_call st' e /\
     map key front = flat_map (fun k => (Z.of_nat k, None) :: map (fun j => (Z.of_nat k, Some j)) (visited 0 features k)) (seq (t_iter st) (t_iter st' - t_iter st))).
Proof.
  induction fuel as [|fuel IH]; intros st shown Z L.
  - cbn [observed_loop loop]. destruct (continues cfg st) eqn:K.
    + exists []. split; [intros; reflexivity|]. split; [constructor|]. intros st' E. discriminate.
    + apply (fun x => x). unfold observed_finish, finish. destruct (forallb _ _).
      * eexists [ {| e_pass := (-1)%Z; e_feature := None; e_preds := shown; e_loss := t_loss st; e_delta := Some (t_delta st); e_groups := state_groups cfg features (t_iter st) (map prepared (t_feats st)) |} ].
        split; [|split].
        -- intros W watch w. unfold ends. cbn [hear]. destruct (watch w _); auto.
        -- constructor; [|constructor]. split; [exact L|]. intro H. cbn in H. lia.
        -- intros st' E. destruct (_ && _); [discriminate|]. injection E as <-. split; [lia|]. split; [auto|]. split; [auto|].
           exists [], {| e_pass := (-1)%Z; e_feature := None; e_preds := shown; e_loss := t_loss st; e_delta := Some (t_delta st); e_groups := state_groups cfg features (t_iter st) (map prepared (t_feats st)) |}.
           split; [reflexivity|]. split; [repeat split|]. rewrite Nat.sub_diag. reflexivity.
      * exists []. split; [intros; reflexivity|]. split; [constructor|]. intros st' E. discriminate.
  - cbn [observed_loop loop]. destruct (continues cfg st) eqn:K.
    + destruct (iteration_observed initial st shown Z L) as (calls & shown' & A & B & NE & C).
      destruct (iteration _ _ _ _ _ _ _ initial st) as [st1|er] eqn:I.
      * destruct (C _ eq_refl) as (C1 & C2 & C3 & C4). destruct (IH st1 shown' C3 C4) as (more & A' & B' & C').
        exists (calls ++ more). split; [|split].
        -- intros W watch w. rewrite A. unfold ends. rewrite hear_app. destruct (hear watch w calls) as [w'|]; auto. cbn [moved]. rewrite A'. reflexivity.
        -- apply Forall_app. split; [apply (pass_call_good (t_iter st) shown (t_loss st)); auto|exact B'].
        -- intros st' E. destruct (C' _ E) as (Le & Sz & Co & front & e & F & La & Ke). split; [lia|]. split; [auto|]. split; [auto|].
           exists (calls ++ front), e. split; [rewrite F, app_assoc; reflexivity|]. split; [exact La|].
           rewrite map_app, C1, Ke, C2. replace (t_iter st' - t_iter st)%nat with (S (t_iter st' - S (t_iter st))) by lia. reflexivity.
      * exists calls. split; [|split; [apply (pass_call_good (t_iter st) shown (t_loss st)); auto|intros st' E; discriminate]].
        intros W watch w. rewrite A. unfold ends. destruct (hear watch w calls); auto.
    + unfold observed_finish, finish. destruct (forallb _ _).
      * eexists [ {| e_pass := (-1)%Z; e_feature := None; e_preds := shown; e_loss := t_loss st; e_delta := Some (t_delta st); e_groups := state_groups cfg features (t_iter st) (map prepared (t_feats st)) |} ].
        split; [|split].
        -- intros W watch w. unfold ends. cbn [hear]. destruct (watch w _); auto.
        -- constructor; [|constructor]. split; [exact L|]. intro H. cbn in H. lia.
        -- intros st' E. destruct (_ && _); [discriminate|]. injection E as <-. split; [lia|]. split; [auto|]. split; [auto|].
           exists [], {| e_pass := (-1)%Z; e_feature := None; e_preds := shown; e_loss := t_loss st; e_delta := Some (t_delta st); e_groups := state_groups cfg features (t_iter st) (map prepared (t_feats st)) |}.
           split; [reflexivity|]. split; [repeat split|]. rewrite Nat.sub_diag. reflexivity.
      * exists []. split; [intros; reflexivity|]. split; [constructor|]. intros st' E. discriminate.
Qed.
End Observed.
