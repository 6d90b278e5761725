(** Facts about flags. *)
From Coq Require Import NArith List Bool String Lia ZifyBool ZifyN.
From Verif.Model Require Import Flags.
From Verif.Spec Require Import FlagSpec.
Import ListNotations.
Local Open Scope N_scope.

Lemma land_eq_iff (p f : N) :
  (N.land p f =? f) = true <-> (forall k, N.testbit f k = true -> N.testbit p k = true).
Proof.
  rewrite N.eqb_eq. split.
  - intros H k Hk. rewrite <- H in Hk. rewrite N.land_spec in Hk.
    apply andb_prop in Hk. apply Hk.
  - intro H. apply N.bits_inj. intro k. rewrite N.land_spec.
    destruct (N.testbit f k) eqn:E; [rewrite (H k E); reflexivity|apply andb_false_r].
Qed.

Lemma testbit_pow2 (a k : N) : N.testbit (2 ^ a) k = (k =? a).
Proof.
  destruct (N.eqb_spec k a) as [->|H].
  - apply N.pow2_bits_true.
  - apply N.pow2_bits_false. auto.
Qed.

Lemma flag_set_single (a p : N) : flag_set (2 ^ a) p = N.testbit p a.
Proof.
  destruct (N.testbit p a) eqn:E.
  - apply land_eq_iff. intros k. rewrite testbit_pow2. intro H.
    apply N.eqb_eq in H. subst. exact E.
  - destruct (flag_set (2 ^ a) p) eqn:F; [|reflexivity].
    pose proof (proj1 (land_eq_iff p (2 ^ a)) F a) as H.
    rewrite testbit_pow2, N.eqb_refl in H. rewrite H in E; auto.
Qed.

Lemma flag_set_double (a b p : N) :
  flag_set (N.lor (2 ^ a) (2 ^ b)) p = N.testbit p a && N.testbit p b.
Proof.
  destruct (N.testbit p a && N.testbit p b) eqn:E.
  - apply andb_prop in E. destruct E as [Ea Eb].
    apply land_eq_iff. intros k. rewrite N.lor_spec, !testbit_pow2. intro H.
    apply orb_prop in H. destruct H as [H|H]; apply N.eqb_eq in H; subst; auto.
  - destruct (flag_set (N.lor (2 ^ a) (2 ^ b)) p) eqn:F; [|reflexivity].
    pose proof (proj1 (land_eq_iff p (N.lor (2 ^ a) (2 ^ b))) F) as H.
    assert (Ha : N.testbit p a = true).
    { apply H. rewrite N.lor_spec, !testbit_pow2, N.eqb_refl. reflexivity. }
    assert (Hb : N.testbit p b = true).
    { apply H. rewrite N.lor_spec, !testbit_pow2, N.eqb_refl. apply orb_true_r. }
    rewrite Ha, Hb in E. discriminate.
Qed.

Lemma predicates_bits p :
  is_continuous_set p = N.testbit p 0 /\
  is_ordered_set p = N.testbit p 1 /\
  is_unordered_set p = N.testbit p 2 /\
  is_monotonic_set p = N.testbit p 0 && N.testbit p 3 /\
  has_missing_set p = N.testbit p 4 /\
  missing_not_learned_set p = N.testbit p 4 && N.testbit p 5 /\
  has_magic_missing_set p = N.testbit p 4 && N.testbit p 10 /\
  is_linear_set p = N.testbit p 8 /\
  is_seasonal_set p = N.testbit p 9 /\
  increasing_set p = N.testbit p 11 /\
  decreasing_set p = N.testbit p 12.
Proof.
  repeat split;
    first [ apply (flag_set_single 0) | apply (flag_set_single 1) | apply (flag_set_single 2)
          | apply (flag_set_single 4) | apply (flag_set_single 8) | apply (flag_set_single 9)
          | apply (flag_set_single 11) | apply (flag_set_single 12)
          | apply (flag_set_double 0 3) | apply (flag_set_double 4 5) | apply (flag_set_double 4 10) ].
Qed.

Lemma flag_implications p :
  (is_monotonic_set p = true -> is_continuous_set p = true) /\
  (missing_not_learned_set p = true -> has_missing_set p = true) /\
  (has_magic_missing_set p = true -> has_missing_set p = true).
Proof.
  destruct (predicates_bits p) as (H0 & H1 & H2 & H3 & H4 & H5 & H6 & _).
  rewrite H0, H3, H4, H5, H6.
  repeat split; intro H; apply andb_prop in H; apply H.
Qed.

Lemma consistency_iff p :
  check_flags_consistency p = FlagsOk <->
  exactly_one (has_bit p 0) (has_bit p 1) (has_bit p 2) /\ ~ (has_bit p 11 /\ has_bit p 12).
Proof.
  unfold check_flags_consistency, exactly_one, has_bit.
  destruct (predicates_bits p) as (H0 & H1 & H2 & _ & _ & _ & _ & _ & _ & H11 & H12).
  rewrite H0, H1, H2, H11, H12.
  destruct (N.testbit p 0), (N.testbit p 1), (N.testbit p 2), (N.testbit p 11), (N.testbit p 12);
    cbn; split; intro H; try discriminate; intuition congruence.
Qed.

Lemma consistency_errors p :
  (check_flags_consistency p = RaiseNotExactlyOne <->
   ~ exactly_one (has_bit p 0) (has_bit p 1) (has_bit p 2)) /\
  (check_flags_consistency p = RaiseBothDirections <->
   exactly_one (has_bit p 0) (has_bit p 1) (has_bit p 2) /\ has_bit p 11 /\ has_bit p 12).
Proof.
  unfold check_flags_consistency, exactly_one, has_bit.
  destruct (predicates_bits p) as (H0 & H1 & H2 & _ & _ & _ & _ & _ & _ & H11 & H12).
  rewrite H0, H1, H2, H11, H12.
  destruct (N.testbit p 0), (N.testbit p 1), (N.testbit p 2), (N.testbit p 11), (N.testbit p 12);
    cbn; split; split; intro H; try discriminate; intuition congruence.
Qed.

(** What is left after removing listed flags still contains every bit outside
    the listed flags. *)
Lemma convert_rest_bits l v rest names k :
  (forall s f, In (s, f) l -> N.testbit f k = false) ->
  N.testbit (snd (convert_loop l v rest names)) k = N.testbit rest k.
Proof.
  revert rest names. induction l as [|[s f] l IH]; intros rest names H; [reflexivity|].
  cbn [convert_loop]. destruct (N.land f v =? f).
  - rewrite IH; [|intros; eapply H; right; eauto].
    rewrite N.ldiff_spec, (H s f); [apply andb_true_r|left; reflexivity].
  - apply IH. intros; eapply H; right; eauto.
Qed.

Lemma flag_string_bound v s : flag_string v = Some s -> v < 1024.
Proof.
  unfold flag_string. destruct (convert_loop FLAG_LIST v v []) as [names rest] eqn:E.
  destruct (rest =? 0) eqn:R; [|discriminate]. intros _.
  apply N.eqb_eq in R. subst rest.
  destruct (N.lt_ge_cases v 1024) as [H|H]; [exact H|exfalso].
  assert (Hv : v <> 0) by lia.
  assert (Hlog : 10 <= N.log2 v).
  { change 10 with (N.log2 1024). apply N.log2_le_mono. exact H. }
  pose proof (N.bit_log2 v Hv) as Hb.
  pose proof (convert_rest_bits FLAG_LIST v v [] (N.log2 v)) as Hr.
  rewrite E in Hr. cbn [snd] in Hr. rewrite N.bits_0 in Hr.
  rewrite <- Hr in Hb; [discriminate|].
  intros s0 f Hin. 
  assert (Hf : f < 2 ^ 10).
  { cbn in Hin. repeat (destruct Hin as [Hin|Hin]; [inversion Hin; subst; reflexivity|]). destruct Hin. }
  destruct (N.eq_dec f 0) as [->|Hf0]; [apply N.bits_0|].
  apply N.bits_above_log2. apply N.log2_lt_pow2; [lia|].
  eapply N.lt_le_trans; [exact Hf|]. apply N.pow_le_mono_r; lia.
Qed.

(** Bits that a value must have to be printable. *)
Definition printable (v : N) : bool :=
  (v <? 1024) && implb (N.testbit v 3) (N.testbit v 0) && implb (N.testbit v 5) (N.testbit v 4).

Definition check_text (v : N) : bool :=
  match flag_string v with
  | Some s => printable v && match value_of_text s with Some w => w =? v | None => false end
  | None => negb (printable v)
  end.

Definition upto (n : nat) : list N := map N.of_nat (seq 0 n).

Lemma check_text_all : forallb check_text (upto 1024) = true.
Proof. vm_compute. reflexivity. Qed.

Lemma check_text_lt v : v < 1024 -> check_text v = true.
Proof.
  intro H. pose proof (proj1 (forallb_forall _ _) check_text_all) as F.
  apply F. unfold upto. apply in_map_iff. exists (N.to_nat v). split; [lia|].
  apply in_seq. lia.
Qed.

Lemma flag_string_roundtrip v s : flag_string v = Some s -> value_of_text s = Some v.
Proof.
  intro H. pose proof (check_text_lt v (flag_string_bound v s H)) as C.
  unfold check_text in C. rewrite H in C. apply andb_prop in C. destruct C as [_ C].
  destruct (value_of_text s) as [w|]; [|discriminate]. apply N.eqb_eq in C. congruence.
Qed.

Lemma flag_string_iff v :
  (exists s, flag_string v = Some s) <->
  v < 1024 /\ (has_bit v 3 -> has_bit v 0) /\ (has_bit v 5 -> has_bit v 4).
Proof.
  unfold has_bit. split.
  - intros [s H]. pose proof (flag_string_bound v s H) as B. split; [exact B|].
    pose proof (check_text_lt v B) as C. unfold check_text in C. rewrite H in C.
    apply andb_prop in C. destruct C as [C _]. unfold printable in C.
    destruct (N.testbit v 3), (N.testbit v 0), (N.testbit v 5), (N.testbit v 4);
      cbn in C; rewrite ?andb_false_r in C; try discriminate; auto.
  - intros (B & H1 & H2). pose proof (check_text_lt v B) as C. unfold check_text in C.
    destruct (flag_string v) as [s|]; [eauto|exfalso].
    unfold printable in C. apply N.ltb_lt in B. rewrite B in C.
    destruct (N.testbit v 3), (N.testbit v 0), (N.testbit v 5), (N.testbit v 4);
      cbn in C; try discriminate; intuition congruence.
Qed.

(** Values built from the ten listed public constants are printable. *)

Lemma or_all_bit l k : N.testbit (or_all l) k = existsb (fun f => N.testbit f k) l.
Proof.
  induction l as [|f l IH]; [apply N.bits_0|].
  cbn [or_all fold_right existsb]. rewrite N.lor_spec. f_equal. exact IH.
Qed.

Lemma or_all_lt l : incl l listed_flags -> or_all l < 1024.
Proof.
  intro H. destruct (N.eq_dec (or_all l) 0) as [->|Hz]; [lia|].
  change 1024 with (2 ^ 10). apply N.log2_lt_pow2; [lia|].
  destruct (N.lt_ge_cases (N.log2 (or_all l)) 10) as [L|L]; [exact L|exfalso].
  pose proof (N.bit_log2 _ Hz) as B. rewrite or_all_bit in B.
  apply existsb_exists in B. destruct B as [f [Hin Hb]].
  apply H in Hin.
  assert (Hf : f < 2 ^ 10).
  { cbn in Hin. repeat (destruct Hin as [Hin|Hin]; [subst; reflexivity|]). destruct Hin. }
  assert (f <> 0) by (intros ->; rewrite N.bits_0 in Hb; discriminate).
  rewrite N.bits_above_log2 in Hb; [discriminate|].
  apply N.log2_lt_pow2; [lia|].
  eapply N.lt_le_trans; [exact Hf|]. apply N.pow_le_mono_r; lia.
Qed.

Lemma listed_printable l :
  incl l listed_flags ->
  exists s, flag_string (or_all l) = Some s /\ value_of_text s = Some (or_all l).
Proof.
  intro H.
  assert (E : exists s, flag_string (or_all l) = Some s).
  { apply flag_string_iff. split; [apply or_all_lt; exact H|].
    unfold has_bit. rewrite !or_all_bit.
    split; intro B; apply existsb_exists in B; destruct B as [f [Hin Hb]];
      apply existsb_exists; exists f; split; auto;
      apply H in Hin; cbn in Hin;
      repeat (destruct Hin as [Hin|Hin]; [subst; first [discriminate|reflexivity]|]); destruct Hin. }
  destruct E as [s E]. exists s. split; [exact E|apply flag_string_roundtrip; exact E].
Qed.

Lemma flags_to_string_refuted_lemma :
  exists l, incl l public_flags /\ check_flags_consistency (or_all l) = FlagsOk /\
       flags_to_string (FlagInt (or_all l)) = None.
Proof.
  exists [1; 1040]. repeat split; try reflexivity.
  intros x Hx. cbn in *. tauto.
Qed.
