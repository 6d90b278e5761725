(** C15 and C16: feature-property flags. *)
From Coq Require Import NArith List Bool String.
From Verif.Model Require Import Flags.
From Verif.Spec Require Import FlagSpec.
From Verif.Proofs Require Import FlagFacts.
Import ListNotations.
Local Open Scope N_scope.

Theorem C15_predicates_read_their_bits : forall p,
  is_continuous_set p = N.testbit p 0 /\
  is_ordered_set p = N.testbit p 1 /\
  is_unordered_set p = N.testbit p 2 /\
  is_monotonic_set p = N.testbit p 0 && N.testbit p 3 /\
  has_missing_set p = N.testbit p 4 /\
  missing_not_learned_set p = N.testbit p 4 && N.testbit p 5 /\
  has_magic_missing_set p = N.testbit p 4 && N.testbit p 10 /\
  is_linear_set p = N.testbit p 8 /\
  is_seasonal_set p = N.testbit p 9 /\
  increasing_set p = N.testbit p 11 /\
  decreasing_set p = N.testbit p 12.
Proof. exact predicates_bits. Qed.
Print Assumptions C15_predicates_read_their_bits.

Theorem C15_flag_implications : forall p,
  (is_monotonic_set p = true -> is_continuous_set p = true) /\
  (missing_not_learned_set p = true -> has_missing_set p = true) /\
  (has_magic_missing_set p = true -> has_missing_set p = true).
Proof. exact flag_implications. Qed.
Print Assumptions C15_flag_implications.

Theorem C15_consistency_check_exact : forall p,
  check_flags_consistency p = FlagsOk <->
  exactly_one (has_bit p 0) (has_bit p 1) (has_bit p 2) /\ ~ (has_bit p 11 /\ has_bit p 12).
Proof. exact consistency_iff. Qed.
Print Assumptions C15_consistency_check_exact.

Theorem C15_consistency_errors : forall p,
  (check_flags_consistency p = RaiseNotExactlyOne <->
   ~ exactly_one (has_bit p 0) (has_bit p 1) (has_bit p 2)) /\
  (check_flags_consistency p = RaiseBothDirections <->
   exactly_one (has_bit p 0) (has_bit p 1) (has_bit p 2) /\ has_bit p 11 /\ has_bit p 12).
Proof. exact consistency_errors. Qed.
Print Assumptions C15_consistency_errors.

Example c15_ok : check_flags_consistency (N.lor IS_MONOTONIC INCREASING) = FlagsOk.
Proof. reflexivity. Qed.
Example c15_two : check_flags_consistency (N.lor IS_ORDERED IS_UNORDERED) = RaiseNotExactlyOne.
Proof. reflexivity. Qed.
Example c15_both :
  check_flags_consistency (N.lor IS_CONTINUOUS (N.lor INCREASING DECREASING)) = RaiseBothDirections.
Proof. reflexivity. Qed.

(** C16 is violated: CONTINUOUS or HAS_MAGIC_INT_MISSING is consistent and
    built from public constants, but flags_to_string raises. *)
Theorem C16_text_total_refuted :
  exists l, incl l public_flags /\ check_flags_consistency (or_all l) = FlagsOk /\
       flags_to_string (FlagInt (or_all l)) = None.
Proof. exact flags_to_string_refuted_lemma. Qed.
Print Assumptions C16_text_total_refuted.

(** What holds instead: any text returned is faithful ... *)
Theorem C16_text_faithful : forall v s, flag_string v = Some s -> value_of_text s = Some v.
Proof. exact flag_string_roundtrip. Qed.
Print Assumptions C16_text_faithful.

(** ... and the conversion succeeds exactly for these values, among them every
    or of the ten constants that the code lists. *)
Theorem C16_text_domain_partial : forall v,
  (exists s, flag_string v = Some s) <->
  v < 1024 /\ (has_bit v 3 -> has_bit v 0) /\ (has_bit v 5 -> has_bit v 4).
Proof. exact flag_string_iff. Qed.
Print Assumptions C16_text_domain_partial.

Theorem C16_text_listed_partial : forall l,
  incl l listed_flags ->
  exists s, flag_string (or_all l) = Some s /\ value_of_text s = Some (or_all l).
Proof. exact listed_printable. Qed.
Print Assumptions C16_text_listed_partial.

Example c16_text : flag_string (or_all [9; 48]) =
  Some "IS_CONTINUOUS | IS_MONOTONIC | HAS_MISSING | MISSING_NOT_LEARNED"%string.
Proof. reflexivity. Qed.
Example c16_incl : incl [9; 48] listed_flags.
Proof. intros x Hx. cbn in *. tauto. Qed.
