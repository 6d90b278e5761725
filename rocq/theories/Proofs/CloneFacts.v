(** Copies of objects and settings of estimators. *)
From Coq Require Import ZArith List Bool Lia.
From Verif.Model Require Import Pipelines Cloning.
From Verif.Spec Require Import PipelineSpec CloneSpec.
From Verif.Proofs Require Import PipelineFacts.
Import ListNotations.

(** ** Objects *)
Section Ind.
Variable P : pyval -> Prop.
Hypothesis HA : forall a, P (PAtom a).
Hypothesis HS : forall i l, Forall P l -> P (PSeq i l).
Hypothesis HO : forall i l, Forall P l -> P (POpaque i l).
Hypothesis HE : forall i c p s, Forall P p -> Forall P s -> P (PEst i c p s).
Fixpoint pyval_rect' (v : pyval) : P v :=
  let fix all (l : list pyval) : Forall P l :=
    match l with [] => Forall_nil _ | x :: r => Forall_cons _ (pyval_rect' x) (all r) end in
  match v with
  | PAtom a => HA a
  | PSeq i l => HS i l (all l)
  | POpaque i l => HO i l (all l)
  | PEst i c p s => HE i c p s (all p) (all s)
  end.
End Ind.

Definition fresh_between (n n' : nat) (v : pyval) : Prop := forall i, part_of i v -> (n <= i < n')%nat.

Lemma on_list_copy l : Forall (fun v => forall n v' n', deepcopy v n = (v', n') ->
    (n <= n')%nat /\ equal_value v v' /\ fresh_between n n' v') l ->
  forall n l' n', on_list deepcopy l n = (l', n') ->
  (n <= n')%nat /\ Forall2 equal_value l l' /\ forall v, In v l' -> fresh_between n n' v.
Proof.
  induction 1 as [|v r H _ IH]; intros n l' n' E.
  - cbn in E. injection E as <- <-. split; [lia|]. split; [constructor|intros v []].
  - change (on_list deepcopy (v :: r) n) with
      (let '(v', n1) := deepcopy v n in let '(r', n2) := on_list deepcopy r n1 in (v' :: r', n2)) in E.
    destruct (deepcopy v n) as [v1 n1] eqn:E1. destruct (on_list deepcopy r n1) as [r1 n2] eqn:E2. injection E as <- <-.
    destruct (H _ _ _ E1) as (A1 & A2 & A3). destruct (IH _ _ _ E2) as (B1 & B2 & B3).
    split; [lia|]. split; [constructor; auto|]. intros w [<-|I] i Hi.
    + specialize (A3 i Hi). lia.
    + specialize (B3 w I i Hi). lia.
Qed.

Lemma deepcopy_spec : forall v n v' n', deepcopy v n = (v', n') ->
  (n <= n')%nat /\ equal_value v v' /\ fresh_between n n' v'.
Proof.
  induction v as [a|i l IH|i l IH|i c p s IHp IHs] using pyval_rect'; intros n v' n' E; cbn [deepcopy] in E.
  - injection E as <- <-. split; [lia|]. split; [constructor|]. intros i Hi. inversion Hi.
  - destruct (on_list deepcopy l (S n)) as [l' n1] eqn:E1. injection E as <- <-.
    destruct (on_list_copy l IH _ _ _ E1) as (A & B & C). split; [lia|]. split; [constructor; auto|].
    intros k Hk. inversion Hk as [| ? ? w I W | | | | |]; subst; [lia|]. specialize (C w I k W). lia.
  - destruct (on_list deepcopy l (S n)) as [l' n1] eqn:E1. injection E as <- <-.
    destruct (on_list_copy l IH _ _ _ E1) as (A & B & C). split; [lia|]. split; [constructor; auto|].
    intros k Hk. inversion Hk as [| | | ? ? w I W | | |]; subst; [lia|]. specialize (C w I k W). lia.
  - destruct (on_list deepcopy p (S n)) as [p' n1] eqn:E1. destruct (on_list deepcopy s n1) as [s' n2] eqn:E2.
    injection E as <- <-.
    destruct (on_list_copy p IHp _ _ _ E1) as (A & B & C). destruct (on_list_copy s IHs _ _ _ E2) as (A' & B' & C').
    split; [lia|]. split; [constructor; auto|].
    intros k Hk. inversion Hk as [| | | | | ? ? ? ? w I W | ? ? ? ? w I W]; subst; [lia| |].
    + specialize (C w I k W). lia.
    + specialize (C' w I k W). lia.
Qed.

Section Clone.
Variable shared : nat -> nat -> bool.
Notation clone := (clone shared).
Definition clone_ok (v : pyval) : Prop := forall safe n v' n', clone safe v n = Some (v', n') ->
  (n <= n')%nat /\ same_settings shared v v' /\ forall i, part_of i v' -> (n <= i < n')%nat \/ kept_part shared i v.

Lemma on_list_clone safe l : Forall clone_ok l -> forall n l' n', on_list_opt (clone safe) l n = Some (l', n') ->
  (n <= n')%nat /\ Forall2 (same_settings shared) l l' /\
  forall v' i, In v' l' -> part_of i v' -> (n <= i < n')%nat \/ exists v, In v l /\ kept_part shared i v.
Proof.
  induction 1 as [|v r H _ IH]; intros n l' n' E.
  - cbn in E. injection E as <- <-. split; [lia|]. split; [constructor|intros v i []].
  - change (on_list_opt (clone safe) (v :: r) n) with
      (match clone safe v n with
       | Some (v', n1) => match on_list_opt (clone safe) r n1 with Some (r', n2) => Some (v' :: r', n2) | None => None end
       | None => None end) in E.
    destruct (clone safe v n) as [[v1 n1]|] eqn:E1; [|discriminate].
    destruct (on_list_opt (clone safe) r n1) as [[r1 n2]|] eqn:E2; [|discriminate]. injection E as <- <-.
    destruct (H _ _ _ _ E1) as (A1 & A2 & A3). destruct (IH _ _ _ E2) as (B1 & B2 & B3).
    split; [lia|]. split; [constructor; auto|]. intros w i [<-|I] Hi.
    + destruct (A3 i Hi) as [K|K]; [left; lia|right; exists v; split; [left; reflexivity|exact K]].
    + destruct (B3 w i I Hi) as [K|(x & X & K)]; [left; lia|right; exists x; split; [right; exact X|exact K]].
Qed.

Definition clone_params (c : nat) : nat -> list pyval -> nat -> option (list pyval * nat) :=
  fix go (i : nat) (l : list pyval) (next : nat) : option (list pyval * nat) :=
  match l with
  | [] => Some ([], next)
  | v :: r => match (if shared c i then Some (v, next) else clone false v next) with
              | Some (v', n1) => match go (S i) r n1 with
                                 | Some (r', n2) => Some (v' :: r', n2)
                                 | None => None
                                 end
              | None => None
              end
  end.
Lemma clone_params_cons c i v r n : clone_params c i (v :: r) n =
  match (if shared c i then Some (v, n) else clone false v n) with
  | Some (v', n1) => match clone_params c (S i) r n1 with
                     | Some (r', n2) => Some (v' :: r', n2)
                     | None => None
                     end
  | None => None
  end.
Proof. reflexivity. Qed.
Lemma clone_est safe i c p s n : clone safe (PEst i c p s) n =
  match clone_params c 0 p (S n) with Some (p', n') => Some (PEst n c p' [], n') | None => None end.
Proof. reflexivity. Qed.

Lemma params_clone c l : Forall clone_ok l -> forall j n l' n', clone_params c j l n = Some (l', n') ->
  (n <= n')%nat /\ length l = length l' /\
  (forall k v v', nth_error l k = Some v -> nth_error l' k = Some v' ->
     (shared c (j + k) = true -> v' = v) /\ (shared c (j + k) = false -> same_settings shared v v' /\
        forall i, part_of i v' -> (n <= i < n')%nat \/ kept_part shared i v)).
Proof.
  induction 1 as [|v r H _ IH]; intros j n l' n' E; [cbn in E|rewrite clone_params_cons in E].
  - injection E as <- <-. split; [lia|]. split; [reflexivity|]. intros [|k] v v' K; discriminate.
  - destruct (shared c j) eqn:S0.
    + destruct (clone_params c (S j) r n) as [[r1 n2]|] eqn:E2; [|discriminate]. injection E as <- <-.
      destruct (IH _ _ _ _ E2) as (B1 & B2 & B3). split; [lia|]. split; [cbn; congruence|].
      intros [|k] w w' K K'; cbn in K, K'.
      * injection K as <-. injection K' as <-. rewrite Nat.add_0_r, S0. split; [auto|discriminate].
      * specialize (B3 k w w' K K'). rewrite <- plus_n_Sm. exact B3.
    + destruct (clone false v n) as [[v1 n1]|] eqn:E1; [|discriminate].
      destruct (clone_params c (S j) r n1) as [[r1 n2]|] eqn:E2; [|discriminate]. injection E as <- <-.
      destruct (H _ _ _ _ E1) as (A1 & A2 & A3). destruct (IH _ _ _ _ E2) as (B1 & B2 & B3).
      split; [lia|]. split; [cbn; congruence|]. intros [|k] w w' K K'; cbn in K, K'.
      * injection K as <-. injection K' as <-. rewrite Nat.add_0_r, S0. split; [discriminate|]. intros _. split; [exact A2|].
        intros i Hi. destruct (A3 i Hi) as [Q|Q]; [left; lia|right; exact Q].
      * destruct (B3 k w w' K K') as [C1 C2]. rewrite <- plus_n_Sm. split; [exact C1|].
        intro F. destruct (C2 F) as [D1 D2]. split; [exact D1|]. intros i Hi. destruct (D2 i Hi) as [Q|Q]; [left; lia|right; exact Q].
Qed.

Lemma clone_spec : forall v, clone_ok v.
Proof.
  induction v as [a|i l IH|i l IH|i c p s IHp _] using pyval_rect'; intros safe n v' n' E.
  - cbn in E. destruct safe; [discriminate|]. injection E as <- <-. split; [lia|]. split; [constructor|]. intros i Hi. inversion Hi.
  - change (clone safe (PSeq i l) n) with (match on_list_opt (clone safe) l (S n) with Some (l', n0) => Some (PSeq n l', n0) | None => None end) in E.
    destruct (on_list_opt (clone safe) l (S n)) as [[l' n1]|] eqn:E1; [|discriminate]. injection E as <- <-.
    destruct (on_list_clone _ _ IH _ _ _ E1) as (A & B & C). split; [lia|]. split; [constructor; exact B|].
    intros k Hk. inversion Hk as [| ? ? w I W | | | | |]; subst; [left; lia|].
    destruct (C w k I W) as [K|(x & X & K)]; [left; lia|right; eapply kept_seq; eassumption].
  - change (clone safe (POpaque i l) n) with (if safe then None else Some (deepcopy (POpaque i l) n)) in E.
    destruct safe; [discriminate|]. assert (E1 : deepcopy (POpaque i l) n = (v', n')) by congruence.
    destruct (deepcopy_spec _ _ _ _ E1) as (A & B & C). split; [exact A|]. split.
    + inversion B; subst. now constructor.
    + intros k Hk. left. exact (C k Hk).
  - rewrite clone_est in E. destruct (clone_params c 0 p (S n)) as [[p' n1]|] eqn:E1; [|discriminate]. injection E as <- <-.
    destruct (params_clone c p IHp _ _ _ _ E1) as (A & B & C). split; [lia|]. split.
    + constructor; [exact B| |]; intros k v v' K K' F; destruct (C k v v' K K') as [C1 C2]; [auto|now apply C2].
    + intros k Hk. inversion Hk as [| | | | | ? ? ? ? w I W | ? ? ? ? w I W]; subst; [left; lia| |destruct I].
      apply In_nth_error in I. destruct I as [m Hm].
      assert (Lm : (m < length p)%nat) by (rewrite B; apply nth_error_Some; congruence).
      destruct (nth_error p m) as [v|] eqn:Hv; [|apply nth_error_None in Hv; lia].
      destruct (C m v w Hv Hm) as [C1 C2]. destruct (shared c m) eqn:S0.
      * rewrite (C1 S0) in W. right. eapply kept_here; eassumption.
      * destruct (C2 S0) as [_ D]. destruct (D k W) as [Q|Q]; [left; lia|right; eapply kept_param; eassumption].
Qed.

(** Cloning of settings never fails. *)
Lemma clone_total : forall v n, exists v' n', clone false v n = Some (v', n').
Proof.
  induction v as [a|i l IH|i l IH|i c p s IHp _] using pyval_rect'; intros n.
  - eexists _, _. reflexivity.
  - change (clone false (PSeq i l) n) with (match on_list_opt (clone false) l (S n) with Some (l', n0) => Some (PSeq n l', n0) | None => None end).
    assert (T : forall m, exists r, on_list_opt (clone false) l m = Some r).
    { induction IH as [|v r H _ IHr]; intro m; [eexists; reflexivity|].
      change (on_list_opt (clone false) (v :: r) m) with
      (match clone false v m with
       | Some (v', n1) => match on_list_opt (clone false) r n1 with Some (r', n2) => Some (v' :: r', n2) | None => None end
       | None => None end).
      destruct (H m) as (v' & n1 & ->). destruct (IHr n1) as ((r' & n2) & ->). eexists; reflexivity. }
    destruct (T (S n)) as ((l' & n') & ->). eexists _, _. reflexivity.
  - change (clone false (POpaque i l) n) with (Some (deepcopy (POpaque i l) n)). destruct (deepcopy (POpaque i l) n) as [v' n']. eexists _, _; reflexivity.
  - rewrite clone_est.
    assert (T : forall j m, exists r, clone_params c j p m = Some r).
    { induction IHp as [|v r H _ IHr]; intros j m; [eexists; reflexivity|rewrite clone_params_cons].
      destruct (shared c j).
      - destruct (IHr (S j) m) as ((r' & n2) & ->). eexists; reflexivity.
      - destruct (H m) as (v' & n1 & ->). destruct (IHr (S j) n1) as ((r' & n2) & ->). eexists; reflexivity. }
    destruct (T 0%nat (S n)) as ((p' & n') & ->). eexists _, _. reflexivity.
Qed.

Lemma clone_estimator_works i c p s n : exists p' n', clone true (PEst i c p s) n = Some (PEst n c p' [], n').
Proof.
  destruct (clone_total (PEst i c p s) n) as (v' & n' & E). rewrite clone_est in *.
  destruct (clone_params c 0 p (S n)) as [[p' n1]|]; [|discriminate]. eauto.
Qed.
Lemma clone_refuses i l n a : clone true (POpaque i l) n = None /\ clone true (PAtom a) n = None.
Proof. split; reflexivity. Qed.

Lemma kept_is_part i v : kept_part shared i v -> part_of i v.
Proof.
  induction 1 as [j l v I _ IH|j c p s k v N _ P|j c p s k v N _ _ IH].
  - eapply in_seq; eassumption.
  - eapply in_params; [eapply nth_error_In; eassumption|exact P].
  - eapply in_params; [eapply nth_error_In; eassumption|exact IH].
Qed.
Lemma nothing_kept : (forall c k, shared c k = false) -> forall i v, ~ kept_part shared i v.
Proof. intros H i v K. induction K; auto. congruence. Qed.

Lemma clone_disjoint safe v n v' n' : (forall c k, shared c k = false) -> allocated n v -> clone safe v n = Some (v', n') ->
  disjoint v v'.
Proof.
  intros H A E i Hi Hi'. destruct (clone_spec v safe n v' n' E) as (_ & _ & C).
  destruct (C i Hi') as [K|K]; [specialize (A i Hi); lia|exact (nothing_kept H i v K)].
Qed.

Lemma clone_theorem safe v n v' n' : clone safe v n = Some (v', n') ->
  (n <= n')%nat /\ same_settings shared v v' /\ forall i, part_of i v' -> (n <= i < n')%nat \/ kept_part shared i v.
Proof. exact (clone_spec v safe n v' n'). Qed.

(** ** The smoothers of the features *)
Hypothesis NS : forall c k, shared c k = false.
Lemma smoothers_spec : forall chosen n l n', feature_smoothers shared chosen n = Some (l, n') ->
  (n <= n')%nat /\ Forall2 (same_settings shared) chosen l /\
  (forall k v, nth_error l k = Some v -> fresh_between n n' v) /\
  (forall j k v w, nth_error l j = Some v -> nth_error l k = Some w -> j <> k -> disjoint v w).
Proof.
  induction chosen as [|v r IH]; intros n l n' E; cbn [feature_smoothers] in E.
  - injection E as <- <-. split; [lia|]. split; [constructor|]. split; [intros [|k] v K; discriminate|intros [|j] k v w K; discriminate].
  - destruct (clone true v n) as [[v1 n1]|] eqn:E1; [|discriminate].
    destruct (feature_smoothers shared r n1) as [[r1 n2]|] eqn:E2; [|discriminate]. injection E as <- <-.
    destruct (clone_spec v true n v1 n1 E1) as (A1 & A2 & A3). destruct (IH _ _ _ E2) as (B1 & B2 & B3 & B4).
    assert (A4 : fresh_between n n1 v1).
    { intros i Hi. destruct (A3 i Hi) as [K|K]; [exact K|exfalso; exact (nothing_kept NS i v K)]. }
    split; [lia|]. split; [constructor; auto|]. split.
    + intros [|k] w K i Hi; cbn in K.
      * injection K as <-. specialize (A4 i Hi). lia.
      * specialize (B3 k w K i Hi). lia.
    + intros [|j] [|k] x y J K D; cbn in J, K; try congruence.
      * injection J as <-. intros i Hi Hi'. specialize (A4 i Hi). specialize (B3 k y K i Hi'). lia.
      * injection K as <-. intros i Hi Hi'. specialize (A4 i Hi'). specialize (B3 j x J i Hi). lia.
      * eapply B4; eauto.
Qed.
End Clone.

Lemma learn_other i st : forall v, ~ part_of i v -> learn i st v = v.
Proof.
  induction v as [a|j l IH|j l IH|j c p s IHp IHs] using pyval_rect'; intro H; cbn [learn]; auto.
  - f_equal. rewrite <- (map_id l) at 2. apply map_ext_in. intros v I. rewrite Forall_forall in IH. apply (IH v I).
    intro P. apply H. eapply in_seq; eassumption.
  - f_equal. rewrite <- (map_id l) at 2. apply map_ext_in. intros v I. rewrite Forall_forall in IH. apply (IH v I).
    intro P. apply H. eapply in_opaque; eassumption.
  - rewrite Forall_forall in IHp, IHs. f_equal.
    + rewrite <- (map_id p) at 2. apply map_ext_in. intros v I. apply (IHp v I). intro P. apply H. eapply in_params; eassumption.
    + destruct (Nat.eqb i j) eqn:E.
      * apply Nat.eqb_eq in E. subst j. exfalso. apply H. constructor.
      * rewrite <- (map_id s) at 2. apply map_ext_in. intros v I. apply (IHs v I). intro P. apply H. eapply in_learned; eassumption.
Qed.

Lemma own_smoother shared chosen n l n' : (forall c k, shared c k = false) -> (forall v, In v chosen -> allocated n v) ->
  feature_smoothers shared chosen n = Some (l, n') ->
  Forall2 (same_settings shared) chosen l /\
  forall j v i st, nth_error l j = Some v -> part_of i v ->
    (forall k w, nth_error l k = Some w -> j <> k -> learn i st w = w) /\
    (forall w, In w chosen -> learn i st w = w).
Proof.
  intros NS A E. destruct (smoothers_spec shared NS _ _ _ _ E) as (_ & B & C & D). split; [exact B|].
  intros j v i st J Pi. split.
  - intros k w K N. apply learn_other. exact (D j k v w J K N i Pi).
  - intros w W. apply learn_other. intro Q. specialize (A w W i Q). specialize (C j v J i Pi). lia.
Qed.

(** ** Settings *)
Definition full (e : estimator) (env : setting -> value) (s : setting) : option value :=
  match constructor_signature e s with
  | Some _ => Some (stored e env s)
  | None => match e, s with
            | CBExponential, feature_groups => Some (VCombined (env standard_feature_groups) (env external_feature_groups))
            | CBExponential, hierarchical_feature_groups | CBNBinomC, hierarchical_feature_groups
            | CBGBSRegressor, prior_prediction_column => Some VNone
            | CBExponential, aggregate | CBNBinomC, aggregate => Some (VBool true)
            | _, _ => None
            end
  end.

Lemma construct_full e kw att : construct e kw = Ok att ->
  fits (constructor_signature e) kw /\ e <> OtherClass /\
  (e = CBExponential -> is_none (env_of exponential_signature kw standard_feature_groups) = false) /\
  forall s, att s = full e (env_of (constructor_signature e) kw) s.
Proof.
  intro H. destruct (construct_Ok _ _ _ H) as (env & B & NO & X & _). pose proof (bind_Ok _ _ _ B) as [F E].
  split; [exact F|]. split; [exact NO|]. rewrite <- E.
  split; [intro Q; specialize (X Q); subst e; cbn [constructor_signature] in E; rewrite <- E; exact X|].
  clear E F. destruct e; try (exfalso; apply NO; reflexivity); cbn [constructor_signature construct] in *;
  unfold base_init, nbinom_init, exponential_init, nbinomc_init, gbs_init, quantile_init, generic_init in H; rewrite B in H;
  try (rewrite (X eq_refl) in H); cbn in H; injection H as <-; intro s; destruct s; reflexivity.
Qed.

Lemma construct_total e kw : fits (constructor_signature e) kw -> e <> OtherClass ->
  (e = CBExponential -> is_none (env_of exponential_signature kw standard_feature_groups) = false) ->
  exists att, construct e kw = Ok att.
Proof.
  intros F NO X. destruct (construct_stored e kw _ (bind_fits _ _ F)) as (att & E & _); [|exact NO|eauto].
  intro Q. specialize (X Q). subst e. exact X.
Qed.

Lemma stored_again e env env' s : (forall s', constructor_signature e s' <> None -> env' s' = stored e env s') ->
  constructor_signature e s <> None -> stored e env' s = stored e env s.
Proof.
  intros H R. unfold stored at 1. pose proof (H s R) as Hs.
  destruct s; try exact Hs; rewrite Hs; unfold stored.
  - destruct (is_none (env observers)) eqn:N; [reflexivity|now rewrite N].
  - destruct (is_none (env smoother_choice)) eqn:N; [reflexivity|now rewrite N].
  - assert (HH : has_hierarchy e = true -> env' hierarchical_feature_groups = env hierarchical_feature_groups).
    { unfold has_hierarchy. intro Q. rewrite H; [reflexivity|]. destruct (constructor_signature e hierarchical_feature_groups); [discriminate|discriminate Q]. }
    destruct (has_hierarchy e) eqn:Q; cbn [andb].
    + rewrite (HH eq_refl). destruct (is_none (env hierarchical_feature_groups)); cbn; [|reflexivity].
      destruct (is_none (env learn_rate)) eqn:N; [reflexivity|now rewrite N].
    + destruct (is_none (env learn_rate)) eqn:N; [reflexivity|now rewrite N].
Qed.

(** A clone of an estimator has all its settings. *)
Lemma clone_same e kw att : construct e kw = Ok att ->
  exists att', clone_estimator e att = Ok att' /\ forall s, att' s = att s.
Proof.
  intro H. destruct (construct_full e kw att H) as (F & NO & X & A).
  set (env := env_of (constructor_signature e) kw) in *.
  assert (F' : fits (constructor_signature e) (get_params e att)).
  { intro s. unfold get_params. destruct (constructor_signature e s) as [d|] eqn:E; [|exact I].
    rewrite A. unfold full. rewrite E. destruct d; exact I. }
  assert (V : forall s, constructor_signature e s <> None -> env_of (constructor_signature e) (get_params e att) s = stored e env s).
  { intros s R. unfold env_of, get_params. destruct (constructor_signature e s) as [d|] eqn:E; [|congruence].
    rewrite A. unfold full. rewrite E. reflexivity. }
  destruct (construct_total e (get_params e att) F' NO) as [att' E'].
  { intro Q. subst e. change exponential_signature with (constructor_signature CBExponential).
    rewrite V by discriminate. unfold stored. exact (X eq_refl). }
  exists att'. split; [exact E'|]. intro s. destruct (construct_full e _ att' E') as (_ & _ & _ & A').
  rewrite A', A. set (env' := env_of (constructor_signature e) (get_params e att)) in *. unfold full.
  destruct (constructor_signature e s) as [d|] eqn:E.
  - f_equal. apply stored_again; [exact V|congruence].
  - destruct e, s; try reflexivity. rewrite !V by discriminate. reflexivity.
Qed.

(** Training only sets missing feature groups. *)
Lemma clone_fitted e kw att groups : construct e kw = Ok att -> groups <> VNone ->
  exists att', clone_estimator e (after_fit groups att) = Ok att' /\ forall s, att' s = after_fit groups att s.
Proof.
  intros H NN. destruct (construct_full e kw att H) as (F & NO & X & A).
  set (kw' := fun s => match s, constructor_signature e feature_groups, att feature_groups with
                       | feature_groups, Some _, Some VNone => Some groups | _, _, _ => kw s end).
  assert (F' : fits (constructor_signature e) kw').
  { intro s. specialize (F s). unfold kw'. destruct s; try exact F.
    destruct (constructor_signature e feature_groups) as [d|]; [|exact F]. destruct (att feature_groups) as [[]|]; try exact F. destruct d; exact I. }
  assert (K : forall s, s <> feature_groups -> kw' s = kw s).
  { intros s N. unfold kw'. destruct s; congruence. }
  destruct (construct_total e kw' F' NO) as [att1 E1].
  { intro Q. specialize (X Q). unfold env_of in *. rewrite K by discriminate. exact X. }
  destruct (construct_full e kw' att1 E1) as (_ & _ & _ & A1).
  assert (Q : forall s, att1 s = after_fit groups att s).
  { intro s. rewrite A1. unfold after_fit. rewrite A.
    assert (EN : forall s, s <> feature_groups -> env_of (constructor_signature e) kw' s = env_of (constructor_signature e) kw s).
    { intros s' N. unfold env_of. rewrite K by exact N. reflexivity. }
    destruct (setting_eq_dec s feature_groups) as [->|N].
    - unfold full. destruct (constructor_signature e feature_groups) as [d|] eqn:E.
      + unfold stored. pose proof (A feature_groups) as G. unfold full in G. rewrite E in G. unfold stored in G.
        unfold env_of at 1. unfold kw' at 1. rewrite E, G.
        destruct (env_of (constructor_signature e) kw feature_groups) eqn:V; try reflexivity;
        unfold env_of in V; rewrite ?E in V; destruct (kw feature_groups) eqn:KF; cbn in *; try congruence; destruct d; congruence.
      + destruct e; try reflexivity; rewrite !EN by discriminate; reflexivity.
    - assert (Z : full e (env_of (constructor_signature e) kw') s = full e (env_of (constructor_signature e) kw) s).
      { unfold full. destruct (constructor_signature e s) as [d|] eqn:E.
        - f_equal. unfold stored. destruct s; rewrite ?EN by discriminate; try reflexivity. congruence.
        - destruct e, s; try reflexivity; congruence. }
      rewrite Z. destruct s; try reflexivity; try congruence. }
  destruct (clone_same e kw' att1 E1) as (att2 & E2 & G2).
  assert (GP : forall s, get_params e att1 s = get_params e (after_fit groups att) s).
  { intro s. unfold get_params. destruct (constructor_signature e s); [apply Q|reflexivity]. }
  assert (F2 : fits (constructor_signature e) (get_params e (after_fit groups att))).
  { destruct (construct_full e _ att2 E2) as (F2 & _). intro s. rewrite <- GP. apply F2. }
  destruct (construct_total e (get_params e (after_fit groups att)) F2 NO) as [att3 E3].
  { destruct (construct_full e _ att2 E2) as (_ & _ & X2 & _). intro Y. specialize (X2 Y). unfold env_of in *. rewrite <- GP. exact X2. }
  exists att3. split; [exact E3|]. intro s. rewrite <- Q, <- G2.
  destruct (construct_full e _ att2 E2) as (_ & _ & _ & A2). destruct (construct_full e _ att3 E3) as (_ & _ & _ & A3).
  rewrite A2, A3.
  assert (EN : forall s, env_of (constructor_signature e) (get_params e (after_fit groups att)) s = env_of (constructor_signature e) (get_params e att1) s).
  { intro s'. unfold env_of. rewrite GP. reflexivity. }
  unfold full, stored. destruct s; rewrite ?EN; reflexivity.
Qed.

(** ** Settings changed later *)
Lemma set_later e kw o s v o' o'' :
  build e kw = Ok o -> set_param e s v o = Ok o' -> build e (with_setting kw s v) = Ok o'' ->
  ~ converted s -> (has_default_object s -> v <> VNone) ->
  (s = learn_rate -> e <> OtherClass -> ob_att o hierarchical_feature_groups = Some VNone) ->
  interchangeable o' o''.
Proof.
  unfold build, set_param. intros B SP B' NC D L.
  destruct (construct e kw) as [att| | |] eqn:C; try discriminate. destruct (construct e (with_setting kw s v)) as [att''| | |] eqn:C'; try discriminate.
  destruct (constructor_signature e s) as [d|] eqn:SG; [|discriminate].
  destruct (construct_full e kw att C) as (F & NO & X & A). destruct (construct_full e _ att'' C') as (_ & _ & _ & A'').
  injection B as <-. injection B' as <-. injection SP as <-. cbn in L.
  assert (ES : env_of (constructor_signature e) (with_setting kw s v) s = v).
  { unfold env_of, with_setting. destruct (setting_beq s s) eqn:Q; [reflexivity|]. exfalso. assert (setting_beq s s = true) by now apply internal_setting_dec_lb. congruence. }
  assert (EN : forall s', s' <> s -> env_of (constructor_signature e) (with_setting kw s v) s' = env_of (constructor_signature e) kw s').
  { intros s' N. unfold env_of, with_setting. destruct (setting_beq s' s) eqn:Q; [|reflexivity]. exfalso. apply N. now apply internal_setting_dec_bl. }
  assert (NH : hierarchical_feature_groups <> s) by (intros <-; apply NC; left; reflexivity).
  assert (H : att'' hierarchical_feature_groups = att hierarchical_feature_groups).
  { rewrite A, A''. unfold full, stored. rewrite EN by exact NH. destruct e; reflexivity. }
  assert (G : forall s', reads {| ob_att := fun s' => if setting_beq s' s then Some v else att s'; ob_hierarchical := match att hierarchical_feature_groups with Some v0 => v0 | None => VNone end |} s'
     = reads {| ob_att := att''; ob_hierarchical := match att'' hierarchical_feature_groups with Some v0 => v0 | None => VNone end |} s').
  { intro s'. unfold reads. cbn [ob_att].
    destruct (setting_beq s' s) eqn:Q.
    - apply internal_setting_dec_bl in Q. subst s'.
      assert (AS : att'' s = Some v).
      { rewrite A''. unfold full. rewrite SG. f_equal. unfold stored.
        destruct s; try exact ES; rewrite ?ES.
        - destruct v; cbn; try reflexivity. exfalso. apply D; [unfold has_default_object; auto|reflexivity].
        - destruct v; cbn; try reflexivity. exfalso. apply D; [unfold has_default_object; auto|reflexivity].
        - assert (HN : is_none (env_of (constructor_signature e) kw hierarchical_feature_groups) = true \/ has_hierarchy e = false).
          { specialize (L eq_refl NO). rewrite A in L. unfold full, has_hierarchy in *.
            destruct (constructor_signature e hierarchical_feature_groups); [left|right; reflexivity]. cbn in L. injection L as ->. reflexivity. }
          rewrite EN by discriminate.
          assert (Z : has_hierarchy e && negb (is_none (env_of (constructor_signature e) kw hierarchical_feature_groups)) = false).
          { destruct HN as [-> | ->]; [apply andb_false_r|reflexivity]. }
          rewrite Z. destruct v; cbn; try reflexivity. exfalso. apply D; [unfold has_default_object; auto|reflexivity]. }
      rewrite AS. destruct s; reflexivity.
    - assert (N : s' <> s) by (intros ->; assert (setting_beq s s = true) by (now apply internal_setting_dec_lb); congruence).
      assert (S1 : standard_feature_groups <> s) by (intros <-; apply NC; right; left; reflexivity).
      assert (S2 : external_feature_groups <> s) by (intros <-; apply NC; right; right; reflexivity).
      assert (Z : att'' s' = att s').
      { rewrite A, A''. unfold full. destruct (constructor_signature e s') as [d'|] eqn:E'.
        - f_equal. unfold stored. destruct s'; rewrite ?EN by assumption; reflexivity.
        - destruct e, s'; try reflexivity. rewrite !EN by assumption. reflexivity. }
      rewrite Z. reflexivity. }
  split; [exact G|]. unfold hierarchical_names. cbn [ob_att ob_hierarchical]. rewrite H.
  destruct (setting_beq hierarchical_feature_groups s) eqn:Q; [exfalso; apply NH; now apply internal_setting_dec_bl|].
  reflexivity.
Qed.

(** ** Cases *)
Definition plain : kwargs := fun _ => None.
Definition given (l : list (setting * value)) : kwargs :=
  fun s => match find (fun p => setting_beq s (fst p)) l with Some p => Some (snd p) | None => None end.

Lemma fitted_clone_keeps_groups : exists e kw att groups att',
  construct e kw = Ok att /\ clone_estimator e (after_fit groups att) = Ok att' /\
  att' feature_groups <> att feature_groups.
Proof.
  exists CBPoissonRegressor, plain. eexists _, (VObj 1), _. split; [reflexivity|]. split; [reflexivity|]. discriminate.
Qed.

Lemma hierarchical_later : exists e kw v o o' o'',
  build e kw = Ok o /\ set_param e hierarchical_feature_groups v o = Ok o' /\
  build e (with_setting kw hierarchical_feature_groups v) = Ok o'' /\
  hierarchical_names o' <> hierarchical_names o'' /\ reads o' learn_rate <> reads o'' learn_rate.
Proof.
  exists CBPoissonRegressor, plain, (VObj 1). eexists _, _, _.
  split; [reflexivity|]. split; [reflexivity|]. split; [reflexivity|]. split; discriminate.
Qed.

Lemma price_groups_later : exists kw v o o' o'',
  build CBExponential kw = Ok o /\ set_param CBExponential standard_feature_groups v o = Ok o' /\
  build CBExponential (with_setting kw standard_feature_groups v) = Ok o'' /\
  (forall s, reads o' s = reads o s) /\ reads o' feature_groups <> reads o'' feature_groups.
Proof.
  exists (given [(external_colname, VObj 0); (standard_feature_groups, VObj 1); (external_feature_groups, VObj 2)]), (VObj 3).
  eexists _, _, _. split; [reflexivity|]. split; [reflexivity|]. split; [reflexivity|].
  split; [intro s; destruct s; reflexivity|discriminate].
Qed.

Lemma price_external_groups_later : exists kw v o o' o'',
  build CBExponential kw = Ok o /\ set_param CBExponential external_feature_groups v o = Ok o' /\
  build CBExponential (with_setting kw external_feature_groups v) = Ok o'' /\
  (forall s, reads o' s = reads o s) /\ reads o' feature_groups <> reads o'' feature_groups.
Proof.
  exists (given [(external_colname, VObj 0); (standard_feature_groups, VObj 1); (external_feature_groups, VObj 2)]), (VObj 3).
  eexists _, _, _. split; [reflexivity|]. split; [reflexivity|]. split; [reflexivity|].
  split; [intro s; destruct s; reflexivity|discriminate].
Qed.

Lemma rate_with_hierarchy : exists e kw v o o' o'',
  build e kw = Ok o /\ set_param e learn_rate v o = Ok o' /\ build e (with_setting kw learn_rate v) = Ok o'' /\
  ob_att o' learn_rate = Some v /\ ob_att o'' learn_rate <> Some v.
Proof.
  exists CBPoissonRegressor, (given [(hierarchical_feature_groups, VObj 1)]), (VObj 2). eexists _, _, _.
  split; [reflexivity|]. split; [reflexivity|]. split; [reflexivity|]. split; [reflexivity|discriminate].
Qed.

Lemma default_rate_not_one : exists o, build CBPoissonRegressor plain = Ok o /\ ob_att o learn_rate = Some VHalfLinear.
Proof. eexists. split; reflexivity. Qed.

(** One smoother given for two features: a meta smoother (class 1) around a smoother
    (class 2) that has already been used. *)
Definition used_smoother : pyval := PEst 1 1 [PEst 2 2 [PAtom 5] [PAtom 7]; PSeq 3 [PAtom 1]] [PAtom 9].
Definition nothing_shared (c k : nat) : bool := false.
Definition two_smoothers : list pyval := [used_smoother; used_smoother].
Definition their_copies : list pyval :=
  [PEst 4 1 [PEst 5 2 [PAtom 5] []; PSeq 6 [PAtom 1]] []; PEst 7 1 [PEst 8 2 [PAtom 5] []; PSeq 9 [PAtom 1]] []].
Lemma two_copies : feature_smoothers nothing_shared two_smoothers 4 = Some (their_copies, 10%nat).
Proof. reflexivity. Qed.
Fixpoint below (n : nat) (v : pyval) : bool :=
  match v with
  | PAtom _ => true
  | PSeq i l | POpaque i l => Nat.ltb i n && forallb (below n) l
  | PEst i _ p s => Nat.ltb i n && forallb (below n) p && forallb (below n) s
  end.
Lemma below_allocated n v : below n v = true -> allocated n v.
Proof.
  intros H i P. revert H. induction P; cbn [below]; intro B; repeat rewrite andb_true_iff in B.
  all: repeat match goal with H : _ /\ _ |- _ => destruct H end.
  all: try (apply Nat.ltb_lt; assumption).
  all: apply IHP; match goal with F : forallb _ ?l = true, I : In _ ?l |- _ => rewrite forallb_forall in F; exact (F _ I) end.
Qed.
Lemma used_allocated : allocated 4 used_smoother.
Proof. apply below_allocated. reflexivity. Qed.
