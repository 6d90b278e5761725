(** Explicit smoothers. *)
From Coq Require Import NArith ZArith List Bool String Arith Lia.
From Verif.Model Require Import Flags SmootherChoice ExplicitSmoothers.
From Verif.Spec Require Import FlagSpec SmootherSpec ExplicitSpec.
From Verif.Proofs Require Import SmootherFacts.
Import ListNotations.

Lemma texts_eqb : forall l m, 
  (fix go (l m : list key) : bool :=
         match l, m with
         | [], [] => true
         | x :: l, y :: m => key_eqb x y && go l m
         | _, _ => false
         end) (map Text l) m = true <-> m = map Text l.
Proof.
  induction l as [|a l IH]; intros [|b m]; cbn [map].
  - tauto.
  - split; discriminate.
  - split; discriminate.
  - rewrite andb_true_iff, IH. destruct b as [t|z| |i]; cbn [key_eqb];
      try (split; [intros [H _]; discriminate | discriminate]).
    rewrite String.eqb_eq. split; [intros [-> ->]; reflexivity | intros H; inversion H; auto].
Qed.

Lemma names_eqb : forall names k, key_eqb (names_key names) k = true <-> k = names_key names.
Proof.
  intros names k. unfold names_key. destruct k as [t|z| |i]; cbn [key_eqb]; try (split; discriminate).
  rewrite texts_eqb. split; [intros ->; reflexivity | intros H; inversion H; reflexivity].
Qed.

Lemma tuple_of_strings_iff : forall k, is_tuple_of_strings k = true <-> exists names, k = names_key names.
Proof.
  intros [t|z| |l]; cbn [is_tuple_of_strings]; try (split; [discriminate | intros [n H]; discriminate]).
  unfold names_key. induction l as [|a l IH].
  - split; [intros _; exists []; reflexivity | reflexivity].
  - cbn [forallb]. rewrite andb_true_iff, IH. split.
    + intros [Ha [n H]]. destruct a; try discriminate. inversion H; subst. exists (s :: n). reflexivity.
    + intros [[|s n] H]; inversion H; subst. split; [reflexivity | exists n; reflexivity].
Qed.

Lemma checks_iff : forall d,
  (forallb (fun kv => is_tuple_of_strings (fst kv)) d = true /\ forallb (fun kv => is_smoother (snd kv)) d = true)
  <-> well_formed d.
Proof.
  intros d. unfold well_formed. rewrite !forallb_forall, Forall_forall. split.
  - intros [A B] kv HI. split; [apply tuple_of_strings_iff; auto |].
    specialize (B kv HI). destruct (snd kv); [eexists; reflexivity | discriminate].
  - intros H. split; intros kv HI; destruct (H kv HI) as [A [s B]].
    + apply tuple_of_strings_iff; exact A.
    + rewrite B. reflexivity.
Qed.

Lemma validate_iff : forall d,
  (well_formed d -> validate_explicit_smoothers (Some d) = Some d) /\
  (~ well_formed d -> validate_explicit_smoothers (Some d) = None).
Proof.
  intros d. pose proof (checks_iff d) as H. unfold validate_explicit_smoothers.
  destruct (forallb (fun kv => is_tuple_of_strings (fst kv)) d), (forallb (fun kv => is_smoother (snd kv)) d);
    cbn [negb]; split; intros W; try reflexivity; exfalso; tauto || (apply H in W; destruct W; discriminate).
Qed.

Theorem explicit_rejected : forall c u n d group props,
  construct_and_choose c u n (Some d) group props = RejectedByConstructor <-> ~ well_formed d.
Proof.
  intros c u n d group props. destruct (validate_iff d) as [A B]. unfold construct_and_choose. split.
  - intros H W. rewrite (A W) in H. destruct (choice_fct c u n (explicit_of d) group props); discriminate.
  - intros W. rewrite (B W). reflexivity.
Qed.

Lemma keys_of : forall names, map column_key (named names) = map Text names.
Proof. intros. unfold named. rewrite map_map. reflexivity. Qed.

Lemma get_named : forall d names e, well_formed d -> NoDup (map fst d) -> In (names_key names, e) d ->
  dict_get d (names_key names) = Some e.
Proof.
  induction d as [|[k e'] d IH]; intros names e W N H; [destruct H |].
  cbn [dict_get]. inversion W as [|x y [[nm K] _] W']; subst. cbn [fst map] in *. inversion N as [|x y NI N']; subst.
  destruct (key_eqb (names_key nm) (names_key names)) eqn:E.
  - apply names_eqb in E. destruct H as [H | H]; [inversion H; reflexivity |].
    exfalso. apply NI. rewrite <- E. change (names_key names) with (fst (names_key names, e)). apply in_map. exact H.
  - destruct H as [H | H]; [| apply IH; assumption].
    inversion H as [[H1 H2]]. assert (E' : key_eqb (names_key nm) (names_key names) = true)
      by (apply names_eqb; unfold names_key; now rewrite H1). congruence.
Qed.

Lemma explicit_named : forall d names s, well_formed d -> NoDup (map fst d) -> In (names_key names, Smoother s) d ->
  explicit_of d (named names) = Some s.
Proof.
  intros d names s W N H. unfold explicit_of. rewrite keys_of. fold (names_key names).
  rewrite (get_named d names (Smoother s) W N H). reflexivity.
Qed.

Lemma get_absent : forall d k, well_formed d -> ~ In k (map fst d) -> dict_get d k = None.
Proof.
  induction d as [|[k' e] d IH]; intros k W H; [reflexivity |].
  cbn [dict_get]. inversion W as [|x y [[nm K] _] W']; subst. cbn [fst map] in *. subst k'.
  destruct (key_eqb (names_key nm) k) eqn:E.
  - apply names_eqb in E. subst k. exfalso. apply H. left; reflexivity.
  - apply IH; [assumption | intros HI; apply H; right; exact HI].
Qed.

Lemma explicit_absent : forall d names, well_formed d -> ~ mentions d names -> explicit_of d (named names) = None.
Proof.
  intros d names W H. unfold explicit_of. rewrite keys_of. fold (names_key names).
  rewrite (get_absent d _ W H). reflexivity.
Qed.

Lemma explicit_empty : forall group, explicit_of [] group = None.
Proof. reflexivity. Qed.

Lemma explicit_numbered : forall d numbers, numbers <> [] -> well_formed d -> explicit_of d (numbered numbers) = None.
Proof.
  intros d numbers H W. unfold explicit_of. rewrite get_absent; [reflexivity | exact W |].
  intros HI. apply in_map_iff in HI. destruct HI as [kv [E HI]].
  unfold well_formed in W. rewrite Forall_forall in W. destruct (W kv HI) as [[nm K] _]. rewrite K in E.
  destruct numbers as [|z r]; [congruence |]. destruct nm; discriminate E.
Qed.

Theorem explicit_obeyed : forall u n d names props s,
  well_formed d -> NoDup (map fst d) -> In (names_key names, Smoother s) d ->
  List.length names = List.length props -> props <> [] ->
  (exists ks t, Forall2 feature_kind props ks /\ group_type ks t /\
     construct_and_choose ChoiceWeightedMean u n (Some d) (named names) props = Chosen (wrapped u n s t)) /\
  (exists k, feature_kind (last props 0%N) k /\
     construct_and_choose ChoiceGroupBy u n (Some d) (named names) props =
       Chosen (match s with GroupByCB _ _ => s | _ => wrapped u n s (type_of_kind k) end)).
Proof.
  intros u n d names props s W N H L P. pose proof (explicit_named d names s W N H) as E.
  assert (L' : List.length (named names) = List.length props) by (unfold named; rewrite map_length; exact L).
  destruct (@choice_explicit column u n (explicit_of d) (named names) props s L' P E) as [[ks [t [A [B C]]]] [k [D F]]].
  unfold construct_and_choose. rewrite (proj1 (validate_iff d) W). split.
  - exists ks, t. split; [exact A | split; [exact B |]]. rewrite C. reflexivity.
  - exists k. split; [exact D |]. rewrite F. reflexivity.
Qed.

(** The choice depends on two lookups only. *)
Lemma last_opt_cons : forall {A} (l : list A) x, last_opt (l ++ [x]) = Some x.
Proof. intros. unfold last_opt. rewrite rev_app_distr. reflexivity. Qed.

Lemma choice_depends : forall c u n (f g : list column -> option smoother) group props,
  f group = g group -> (forall x, last_opt group = Some x -> f [x] = g [x]) ->
  choice_fct c u n f group props = choice_fct c u n g group props.
Proof.
  intros c u n f g group props E1 E2. destruct c; cbn [choice_fct]; [| | reflexivity].
  - unfold choice_weighted_mean. rewrite E1. destruct (g group) eqn:G; [reflexivity |].
    destruct group as [|a [|b r]]; cbn [raw_weighted_mean]; try reflexivity.
    destruct props; [reflexivity |]. unfold get_onedim_smoother. rewrite E1, G. reflexivity.
  - unfold choice_group_by. rewrite E1. destruct (g group); [reflexivity |].
    unfold raw_group_by. destruct (last_opt props); [|reflexivity].
    destruct (last_opt group) as [x|]; [|reflexivity].
    unfold get_onedim_smoother. rewrite (E2 x eq_refl). reflexivity.
Qed.

Lemma last_named : forall names x, last_opt (named names) = Some x ->
  exists s, names <> [] /\ s = last names ""%string /\ x = Named s.
Proof.
  intros names x H. destruct (exists_last (l := names)) as [l [s ->]].
  { intros ->. discriminate H. }
  exists s. unfold named in H. rewrite map_app in H. cbn [map] in H. rewrite last_opt_cons in H. inversion H.
  split; [destruct l; discriminate | split; [rewrite last_last; reflexivity | reflexivity]].
Qed.

Theorem explicit_untouched : forall c u n d names props,
  well_formed d -> ~ mentions d names -> ~ mentions d [last names ""%string] ->
  construct_and_choose c u n (Some d) (named names) props = construct_and_choose c u n None (named names) props.
Proof.
  intros c u n d names props W A B. unfold construct_and_choose. rewrite (proj1 (validate_iff d) W).
  cbn [validate_explicit_smoothers].
  rewrite (choice_depends c u n (explicit_of d) (explicit_of []) (named names) props); [reflexivity | |].
  - rewrite (explicit_absent d names W A). reflexivity.
  - intros x Hx. destruct (last_named names x Hx) as [s [_ [-> ->]]].
    change [Named (last names ""%string)] with (named [last names ""%string]).
    rewrite (explicit_absent d _ W B). reflexivity.
Qed.

(** Multi-column groups of the class with weighted means look up the whole group only. *)
Theorem explicit_untouched_mean : forall u n d names props,
  well_formed d -> ~ mentions d names ->
  construct_and_choose ChoiceWeightedMean u n (Some d) (named names) props =
  construct_and_choose ChoiceWeightedMean u n None (named names) props.
Proof.
  intros u n d names props W A. unfold construct_and_choose. rewrite (proj1 (validate_iff d) W).
  cbn [validate_explicit_smoothers choice_fct]. unfold choice_weighted_mean.
  pose proof (explicit_absent d names W A) as E. rewrite E, explicit_empty.
  destruct names as [|a [|b r]]; [reflexivity | | reflexivity].
  cbn [named map raw_weighted_mean] in *. destruct props; [reflexivity |].
  unfold get_onedim_smoother. rewrite E, explicit_empty. reflexivity.
Qed.

(** The innermost column of a group decides for the group-by class. *)
Theorem explicit_innermost : forall u n d names props s,
  well_formed d -> NoDup (map fst d) -> ~ mentions d names -> (2 <= List.length names)%nat ->
  List.length names = List.length props ->
  In (names_key [last names ""%string], Smoother s) d -> is_group_by s = false ->
  exists k, feature_kind (last props 0%N) k /\
    construct_and_choose ChoiceGroupBy u n (Some d) (named names) props =
      Chosen (GroupByCB (wrapped u n s (type_of_kind k)) (List.length names)).
Proof.
  intros u n d names props s W N A L LP H G.
  assert (P : props <> []) by (intros ->; cbn in LP; lia).
  destruct (@choice_explicit column u n (fun _ => Some s) (named names) props s) as [_ [k [K F]]];
    [unfold named; rewrite map_length; exact LP | exact P | reflexivity |].
  exists k. split; [exact K |].
  assert (F' : wrap_innermost u n s props = Some (wrapped u n s (type_of_kind k))).
  { cbn [choice_fct] in F. unfold choice_group_by in F. rewrite F. destruct s; try reflexivity; discriminate G. }
  unfold construct_and_choose. rewrite (proj1 (validate_iff d) W). cbn [choice_fct]. unfold choice_group_by.
  rewrite (explicit_absent d names W A). unfold raw_group_by.
  destruct (exists_last P) as [pl [p EP]]. rewrite EP at 1. rewrite last_opt_cons.
  destruct (exists_last (l := names)) as [l [x EN]]; [intros ->; cbn in L; lia |].
  assert (EL : last_opt (named names) = Some (Named x)).
  { rewrite EN. unfold named. rewrite map_app. apply last_opt_cons. }
  rewrite EL. unfold get_onedim_smoother.
  assert (EX : last names ""%string = x) by (rewrite EN; apply last_last).
  rewrite EX in H. change [Named x] with (named [x]). rewrite (explicit_named d [x] s W N H).
  assert (LN : List.length (named names) = List.length names) by (unfold named; apply map_length).
  rewrite LN. replace (Nat.ltb 1 (List.length names)) with true by (symmetry; apply Nat.ltb_lt; lia).
  rewrite F'. cbn [option_map]. unfold wrap_innermost. cbn [is_group_by]. reflexivity.
Qed.

Theorem explicit_numbered_ignored : forall c u n d numbers props,
  well_formed d -> numbers <> [] ->
  construct_and_choose c u n (Some d) (numbered numbers) props = construct_and_choose c u n None (numbered numbers) props.
Proof.
  intros c u n d numbers props W H. unfold construct_and_choose. rewrite (proj1 (validate_iff d) W).
  cbn [validate_explicit_smoothers].
  rewrite (choice_depends c u n (explicit_of d) (explicit_of []) (numbered numbers) props); [reflexivity | |].
  - rewrite (explicit_numbered d numbers H W). reflexivity.
  - intros x Hx. destruct (exists_last H) as [l [z ->]]. unfold numbered in Hx. rewrite map_app in Hx.
    cbn [map] in Hx. rewrite last_opt_cons in Hx. inversion Hx.
    change [Numbered z] with (numbered [z]). rewrite explicit_numbered; [reflexivity | discriminate | exact W].
Qed.
