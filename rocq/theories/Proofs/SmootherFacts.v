(** Facts about the choice of smoothers and the creation of features. *)
From Coq Require Import NArith List Bool String Arith Lia.
From Verif.Model Require Import Flags SmootherChoice.
From Verif.Spec Require Import FlagSpec SmootherSpec.
From Verif.Proofs Require Import FlagFacts.
Import ListNotations.
Local Open Scope N_scope.

(** The kind as a function. *)
Definition kind_of (p : N) : kind :=
  if N.testbit p 8 then Linear
  else if N.testbit p 9 then SeasonalKind
  else if N.testbit p 0 && N.testbit p 3 then Monotonic
  else if N.testbit p 0 then Continuous
  else if N.testbit p 1 then Ordered
  else Unordered.

Ltac bits p :=
  destruct (N.testbit p 8) eqn:?B8, (N.testbit p 9) eqn:?B9, (N.testbit p 0) eqn:?B0,
    (N.testbit p 3) eqn:?B3, (N.testbit p 1) eqn:?B1, (N.testbit p 2) eqn:?B2.

Lemma feature_kind_of p : feature_kind p (kind_of p).
Proof.
  unfold feature_kind, kind_of, kinds, declares, has_bit.
  destruct (N.testbit p 8) eqn:B8.
  { left. exists [], [SeasonalKind; Monotonic; Continuous; Ordered; Unordered].
    split; [reflexivity|]. split; [reflexivity|]. intros ? []. }
  destruct (N.testbit p 9) eqn:B9.
  { left. exists [Linear], [Monotonic; Continuous; Ordered; Unordered].
    split; [reflexivity|]. split; [reflexivity|]. intros k' [<-|[]]; congruence. }
  destruct (N.testbit p 0) eqn:B0; cbn [andb].
  - destruct (N.testbit p 3) eqn:B3; cbn [andb].
    + left. exists [Linear; SeasonalKind], [Continuous; Ordered; Unordered].
      split; [reflexivity|]. split; [split; reflexivity|]. intros k' [<-|[<-|[]]]; congruence.
    + left. exists [Linear; SeasonalKind; Monotonic], [Ordered; Unordered].
      split; [reflexivity|]. split; [reflexivity|].
      intros k' [<-|[<-|[<-|[]]]]; [congruence|congruence|intros [_ X]; congruence].
  - destruct (N.testbit p 1) eqn:B1.
    { left. exists [Linear; SeasonalKind; Monotonic; Continuous], [Unordered].
      split; [reflexivity|]. split; [reflexivity|].
      intros k' [<-|[<-|[<-|[<-|[]]]]]; try congruence. intros [X _]; congruence. }
    destruct (N.testbit p 2) eqn:B2.
    { left. exists [Linear; SeasonalKind; Monotonic; Continuous; Ordered], [].
      split; [reflexivity|]. split; [reflexivity|].
      intros k' [<-|[<-|[<-|[<-|[<-|[]]]]]]; try congruence. intros [X _]; congruence. }
    right. split; [reflexivity|].
    intros k' [<-|[<-|[<-|[<-|[<-|[<-|[]]]]]]]; try congruence. intros [X _]; congruence.
Qed.

(** Positions in the list of kinds. *)
Lemma first_unique {A} (P : A -> Prop) (l b1 a1 b2 a2 : list A) (x y : A) :
  l = b1 ++ x :: a1 -> l = b2 ++ y :: a2 -> P x -> P y ->
  (forall z, In z b1 -> ~ P z) -> (forall z, In z b2 -> ~ P z) -> x = y.
Proof.
  revert l b2. induction b1 as [|u b1 IH]; intros l b2 E1 E2 Px Py N1 N2.
  - destruct b2 as [|v b2]; subst l; cbn in E2.
    + injection E2; auto.
    + injection E2 as -> _. exfalso. exact (N2 v (or_introl eq_refl) Px).
  - destruct b2 as [|v b2]; subst l; cbn in E2.
    + injection E2 as -> _. exfalso. exact (N1 y (or_introl eq_refl) Py).
    + injection E2 as -> E2. apply (IH _ b2 eq_refl E2 Px Py).
      * intros z Hz. apply N1. now right.
      * intros z Hz. apply N2. now right.
Qed.

Lemma all_kinds k : In k kinds.
Proof. destruct k; cbn; tauto. Qed.

Lemma feature_kind_unique p k k' : feature_kind p k -> feature_kind p k' -> k = k'.
Proof.
  intros [(b & a & E & D & F)|[E F]] [(b' & a' & E' & D' & F')|[E' F']].
  - exact (first_unique (declares p) kinds b a b' a' k k' E E' D D' F F').
  - exfalso. exact (F' k (all_kinds k) D).
  - exfalso. exact (F k' (all_kinds k') D').
  - congruence.
Qed.

Lemma smoother_of_kind_unique n p k s s' : smoother_of_kind n p k s -> smoother_of_kind n p k s' -> s = s'.
Proof. destruct k; cbn; intros; intuition congruence. Qed.

(** The flags in bits. *)
Lemma simplify_bits p : simplify_flags p =
  match kind_of p with
  | Linear => Some 256
  | SeasonalKind => Some 512
  | Monotonic => if N.testbit p 11 then Some 2057 else if N.testbit p 12 then Some 4105 else Some 9
  | Continuous => Some 1
  | Ordered => Some 2
  | Unordered => if N.testbit p 2 then Some 4 else if N.testbit p 4 then Some 4
                 else match flag_string p with Some _ => Some 4 | None => None end
  end.
Proof.
  destruct (predicates_bits p) as (H0 & H1 & H2 & H3 & H4 & _ & _ & H8 & H9 & H11 & H12).
  unfold simplify_flags, kind_of. rewrite H0, H1, H2, H3, H4, H8, H9, H11, H12.
  bits p; cbn [andb]; reflexivity.
Qed.

Lemma usable_dec p : simplify_flags p = None <-> ~ usable p.
Proof.
  rewrite simplify_bits. unfold usable.
  assert (D : forall k, declares p k -> kind_of p <> Unordered \/ N.testbit p 2 = true).
  { intros k. unfold kind_of, declares, has_bit. bits p; destruct k; cbn; intuition congruence. }
  destruct (kind_of p) eqn:K.
  1-5: (split; [intro X; exfalso; repeat (destruct (N.testbit _ _) in X); discriminate|
        intro X; exfalso; apply X; left;
        destruct (feature_kind_of p) as [(b & a & _ & Y & _)|[Y _]]; [rewrite K in Y; eauto|rewrite K in Y; discriminate]]).
  assert (B : N.testbit p 0 = false).
  { revert K. unfold kind_of. bits p; cbn; congruence. }
  destruct (N.testbit p 2) eqn:B2.
  { split; [discriminate|]. intro X. exfalso. apply X. left. exists Unordered. exact B2. }
  destruct (N.testbit p 4) eqn:B4.
  { split; [discriminate|]. intro X. exfalso. apply X. right. left. exact B4. }
  pose proof (flag_string_iff p) as F.
  destruct (flag_string p) as [s|] eqn:E.
  - split; [discriminate|]. intro X. exfalso. apply X. right. right.
    destruct (proj1 F (ex_intro _ s eq_refl)) as (L & T3 & T5). unfold has_bit in *.
    split; [exact L|]. split; intro Y; [apply T3 in Y|apply T5 in Y]; congruence.
  - split; [|reflexivity]. intros _ [[k Hk]|[X|(L & T3 & T5)]].
    + destruct (D k Hk) as [Y|Y]; [now apply Y|congruence].
    + unfold has_bit in X. congruence.
    + assert (X : exists s, @None string = Some s); [|destruct X; discriminate].
      apply F. split; [exact L|]. split; intro Y; exfalso; [apply T3|apply T5]; exact Y.
Qed.

Lemma onedim_lookup n p key : simplify_flags p = Some key ->
  exists s, default_smoother_types n key = Some s /\ smoother_of_kind n p (kind_of p) s.
Proof.
  rewrite simplify_bits. unfold smoother_of_kind, has_bit.
  destruct (kind_of p); [| |destruct (N.testbit p 11) eqn:?; [|destruct (N.testbit p 12) eqn:?]| | |
    destruct (N.testbit p 2); [|destruct (N.testbit p 4); [|destruct (flag_string p)]]];
    intro E; try discriminate; injection E as <-; eexists; (split; [reflexivity|]); cbn; auto.
Qed.

Lemma reg_type_kind p : reg_type_1 p = type_of_kind (kind_of p).
Proof.
  destruct (predicates_bits p) as (H0 & _ & _ & _ & _ & _ & _ & H8 & H9 & _).
  unfold reg_type_1, kind_of. rewrite H0, H8, H9. bits p; reflexivity.
Qed.

Lemma is_type_iff t u : is_type t u = true <-> t = u.
Proof. destruct t, u; cbn; intuition congruence. Qed.

Lemma group_type_of {K} (group : list K) props ks : List.length group = List.length props -> props <> [] ->
  Forall2 feature_kind props ks -> group_type ks (determine_reg_type group props).
Proof.
  intros L N F.
  assert (M : map (fun gp => reg_type_1 (snd gp)) (combine group props) = map type_of_kind ks).
  { clear N. revert group L. induction F as [|p k props ks Hk F IH]; intros [|g group] L; try discriminate; [reflexivity|].
    cbn. f_equal; [|apply IH; now injection L].
    rewrite reg_type_kind. f_equal. exact (feature_kind_unique p _ _ (feature_kind_of p) Hk). }
  unfold determine_reg_type. rewrite M.
  assert (NE : ks <> []). { intro E. subst ks. inversion F. congruence. }
  destruct (existsb (is_type Discontinuous) (map type_of_kind ks)) eqn:E0.
  { apply existsb_exists in E0. destruct E0 as (t & I & E). apply is_type_iff in E. subst t.
    apply in_map_iff in I. destruct I as (k & T & I). split; [eauto|]. cbn. lia. }
  assert (N0 : forall k, In k ks -> type_of_kind k <> Discontinuous).
  { intros k I T. apply not_true_iff_false in E0. apply E0. apply existsb_exists.
    exists (type_of_kind k). split; [now apply in_map|]. apply is_type_iff. congruence. }
  destruct (existsb (is_type Interpolating) (map type_of_kind ks)) eqn:E1.
  { apply existsb_exists in E1. destruct E1 as (t & I & E). apply is_type_iff in E. subst t.
    apply in_map_iff in I. destruct I as (k & T & I). split; [eauto|].
    intros k' I'. specialize (N0 k' I'). cbn. destruct (type_of_kind k'); cbn; try lia. congruence. }
  assert (N1 : forall k, In k ks -> type_of_kind k = Extrapolating).
  { intros k I. specialize (N0 k I). destruct (type_of_kind k) eqn:T; try congruence.
    apply not_true_iff_false in E1. exfalso. apply E1. apply existsb_exists.
    exists (type_of_kind k). split; [now apply in_map|]. apply is_type_iff. congruence. }
  destruct ks as [|k ks]; [congruence|]. split; [exists k; split; [now left|apply N1; now left]|].
  intros k' I. rewrite (N1 k' I). cbn. lia.
Qed.

Lemma wrap_is_wrapped (u n : bool) s t : determine_meta_smoother s n (if u then Some t else None) = wrapped u n s t.
Proof. destruct u, n; reflexivity. Qed.

Lemma last_opt_app {A} (l : list A) x : last_opt (l ++ [x]) = Some x.
Proof. unfold last_opt. now rewrite rev_app_distr. Qed.
Lemma last_opt_last {A} (l : list A) d : l <> [] -> last_opt l = Some (last l d).
Proof. intro N. rewrite (app_removelast_last d N) at 1. apply last_opt_app. Qed.

Section K.
Context {K : Type}.
Variables (u n : bool) (explicit : list K -> option smoother).

Lemma onedim_default (c : K) p : explicit [c] = None -> usable p ->
  exists s, smoother_of_kind n p (kind_of p) s /\ get_onedim_smoother n explicit p c = Some s.
Proof.
  intros E U. unfold get_onedim_smoother. rewrite E.
  destruct (simplify_flags p) as [key|] eqn:S.
  - destruct (onedim_lookup n p key S) as (s & L & Hs). exists s. rewrite L. auto.
  - apply usable_dec in S. contradiction.
Qed.

Lemma determine_single (c : K) p : determine_reg_type [c] [p] = type_of_kind (kind_of p).
Proof.
  unfold determine_reg_type. cbn [combine map existsb snd]. rewrite reg_type_kind.
  destruct (type_of_kind (kind_of p)); reflexivity.
Qed.

Lemma onedim_not_group (c : K) p s : smoother_of_kind n p (kind_of p) s -> is_group_by s = false.
Proof. destruct (kind_of p); cbn; intros; intuition (subst; reflexivity). Qed.

Lemma choice_one_dim (c : K) p : explicit [c] = None -> usable p ->
  exists k s, feature_kind p k /\ smoother_of_kind n p k s /\
    choice_fct ChoiceWeightedMean u n explicit [c] [p] = Some (wrapped u n s (type_of_kind k)) /\
    choice_fct ChoiceGroupBy u n explicit [c] [p] = Some (wrapped u n s (type_of_kind k)).
Proof.
  intros E U. destruct (onedim_default c p E U) as (s & Hs & G).
  exists (kind_of p), s. split; [apply feature_kind_of|]. split; [exact Hs|]. split.
  - unfold choice_fct, choice_weighted_mean. rewrite E. cbn [raw_weighted_mean]. rewrite G.
    unfold wrap_smoother. rewrite determine_single, wrap_is_wrapped. reflexivity.
  - unfold choice_fct, choice_group_by, raw_group_by. rewrite E. cbn [last_opt rev app List.length Nat.ltb Nat.leb]. rewrite G.
    unfold wrap_innermost. rewrite (onedim_not_group c p s Hs). cbn [last_opt rev app].
    rewrite reg_type_kind, wrap_is_wrapped. reflexivity.
Qed.

Lemma choice_one_dim_none (c : K) p : explicit [c] = None ->
  (choice_fct ChoiceWeightedMean u n explicit [c] [p] = None <-> ~ usable p) /\
  (choice_fct ChoiceGroupBy u n explicit [c] [p] = None <-> ~ usable p).
Proof.
  intros E.
  destruct (simplify_flags p) as [key|] eqn:S.
  - assert (U : usable p -> False -> usable p) by tauto. clear U.
    destruct (onedim_lookup n p key S) as (s & L & Hs).
    assert (NU : ~ usable p -> False).
    { intro X. apply usable_dec in X. congruence. }
    unfold choice_fct, choice_weighted_mean, choice_group_by, raw_group_by, raw_weighted_mean, get_onedim_smoother.
    rewrite E. cbn [last_opt rev app List.length Nat.ltb Nat.leb]. rewrite E, S, L.
    unfold wrap_innermost. rewrite (onedim_not_group c p s Hs). cbn [last_opt rev app].
    split; (split; [discriminate|intro X; destruct (NU X)]).
  - assert (NU : ~ usable p) by (now apply usable_dec).
    unfold choice_fct, choice_weighted_mean, choice_group_by, raw_group_by, raw_weighted_mean, get_onedim_smoother.
    rewrite E. cbn [last_opt rev app]. rewrite E, S. tauto.
Qed.

Lemma kinds_of props : Forall2 feature_kind props (map kind_of props).
Proof. induction props; cbn; constructor; auto using feature_kind_of. Qed.

Lemma choice_explicit group props s : List.length group = List.length props -> props <> [] -> explicit group = Some s ->
  (exists ks t, Forall2 feature_kind props ks /\ group_type ks t /\
     choice_fct ChoiceWeightedMean u n explicit group props = Some (wrapped u n s t)) /\
  (exists k, feature_kind (last props 0) k /\
     choice_fct ChoiceGroupBy u n explicit group props =
       Some (match s with GroupByCB _ _ => s | _ => wrapped u n s (type_of_kind k) end)).
Proof.
  intros L N E. split.
  - exists (map kind_of props), (determine_reg_type group props).
    split; [apply kinds_of|]. split; [apply group_type_of; auto using kinds_of|].
    unfold choice_fct, choice_weighted_mean. rewrite E. unfold wrap_smoother. now rewrite wrap_is_wrapped.
  - exists (kind_of (last props 0)). split; [apply feature_kind_of|].
    unfold choice_fct, choice_group_by. rewrite E. unfold wrap_innermost. rewrite (last_opt_last props 0 N).
    rewrite wrap_is_wrapped, reg_type_kind. destruct s; reflexivity.
Qed.

Lemma choice_interaction group props : List.length group = List.length props -> (2 <= List.length group)%nat ->
  explicit group = None ->
  exists ks t, Forall2 feature_kind props ks /\ group_type ks t /\
     choice_fct ChoiceWeightedMean u n explicit group props = Some (wrapped u n WeightedMeanND t).
Proof.
  intros L M E. exists (map kind_of props), (determine_reg_type group props).
  assert (N : props <> []). { intro X. subst props. cbn in L. lia. }
  split; [apply kinds_of|]. split; [apply group_type_of; auto using kinds_of|].
  unfold choice_fct, choice_weighted_mean. rewrite E. unfold wrap_smoother.
  destruct group as [|a [|b group]]; cbn in M; try lia. cbn [raw_weighted_mean]. now rewrite wrap_is_wrapped.
Qed.

Lemma choice_interaction_group_by outer c outer_props p : List.length outer = List.length outer_props -> outer <> [] ->
  explicit (outer ++ [c]) = None -> explicit [c] = None -> usable p ->
  exists k s, feature_kind p k /\ smoother_of_kind n p k s /\
    choice_fct ChoiceGroupBy u n explicit (outer ++ [c]) (outer_props ++ [p]) =
      Some (GroupByCB (wrapped u n s (type_of_kind k)) (S (List.length outer))).
Proof.
  intros L NE E Ec U. destruct (onedim_default c p Ec U) as (s & Hs & G).
  exists (kind_of p), s. split; [apply feature_kind_of|]. split; [exact Hs|].
  unfold choice_fct, choice_group_by, raw_group_by. rewrite E, !last_opt_app, G.
  unfold wrap_innermost. rewrite (onedim_not_group c p s Hs), last_opt_app, wrap_is_wrapped, reg_type_kind.
  rewrite app_length, Nat.add_comm. cbn [List.length Nat.add].
  destruct outer as [|x outer]; [congruence|]. reflexivity.
Qed.

Lemma choice_interaction_group_by_explicit outer c outer_props p s : List.length outer = List.length outer_props -> outer <> [] ->
  explicit (outer ++ [c]) = None -> explicit [c] = Some s ->
  exists k, feature_kind p k /\
    choice_fct ChoiceGroupBy u n explicit (outer ++ [c]) (outer_props ++ [p]) =
      Some (GroupByCB (match s with GroupByCB _ _ => s | _ => wrapped u n s (type_of_kind k) end) (S (List.length outer))).
Proof.
  intros L NE E Ec. exists (kind_of p). split; [apply feature_kind_of|].
  unfold choice_fct, choice_group_by, raw_group_by, get_onedim_smoother. rewrite E, !last_opt_app, Ec.
  unfold wrap_innermost. rewrite last_opt_app, wrap_is_wrapped, reg_type_kind.
  rewrite app_length, Nat.add_comm. cbn [List.length Nat.add].
  destruct outer as [|x outer]; [congruence|]. destruct s; reflexivity.
Qed.

Lemma choice_none_always (group : list K) props : List.length group = List.length props -> props <> [] ->
  exists ks t, Forall2 feature_kind props ks /\ group_type ks t /\
  choice_fct ChoiceNone u n explicit group props = Some (wrapped u n (match group with [_] => BinValues1D | _ => BinValuesND end) t).
Proof.
  intros L N. exists (map kind_of props), (determine_reg_type group props).
  split; [apply kinds_of|]. split; [apply group_type_of; auto using kinds_of|].
  unfold choice_fct, choice_none, wrap_smoother. rewrite wrap_is_wrapped.
  destruct group as [|a [|b group]]; reflexivity.
Qed.
End K.

Lemma choice_unusable_witness : choice_fct ChoiceWeightedMean true true (fun _ : list nat => None) [7%nat] [2048] = None /\
  ~ usable 2048.
Proof.
  assert (S : simplify_flags 2048 = None) by (vm_compute; reflexivity).
  split; [vm_compute; reflexivity|]. now apply usable_dec.
Qed.

Lemma choice_explicit_ignored : exists (explicit : list nat -> option smoother) group p s,
  explicit group = Some s /\ forall u n t, choice_fct ChoiceNone u n explicit group [p] <> Some (wrapped u n s t).
Proof.
  exists (fun _ => Some LinearExtrapolator), [7%nat], 256, LinearExtrapolator. split; [reflexivity|].
  intros [] [] t; cbn; discriminate.
Qed.

(** Columns and features. *)
Section F.
Context {K : Type} (Keqb : K -> K -> bool).
Hypothesis Keqb_ok : forall a b, Keqb a b = true <-> a = b.

Lemma feature_columns_without columns excluded :
  without (fun c => In c excluded) (feature_columns Keqb columns excluded) columns.
Proof.
  induction columns as [|c r IH]; cbn; [constructor|].
  destruct (existsb (Keqb c) excluded) eqn:E; cbn.
  - constructor; [|exact IH]. apply existsb_exists in E. destruct E as (x & I & X). apply Keqb_ok in X. now subst.
  - constructor; [|exact IH]. intro I. apply not_true_iff_false in E. apply E. apply existsb_exists.
    exists c. split; [exact I|now apply Keqb_ok].
Qed.

Lemma without_iff {A} (P Q : A -> Prop) a b : (forall x, P x <-> Q x) -> without P a b -> without Q a b.
Proof.
  intros H W. induction W.
  - constructor.
  - apply without_drop; [now apply H|assumption].
  - apply without_keep; [now rewrite <- H|assumption].
Qed.

Lemma default_groups prior weight columns :
  exists cs, without (fun c => prior = Some c \/ weight = Some c) cs columns /\
    init_feature_groups Keqb None prior weight columns = map Single cs.
Proof.
  exists (feature_columns Keqb columns (exclude_columns prior weight)). split; [|reflexivity].
  apply (without_iff (fun c => In c (exclude_columns prior weight))); [|apply feature_columns_without].
  intro x. unfold exclude_columns. rewrite in_app_iff. destruct prior, weight; cbn; intuition congruence.
Qed.

Lemma without_unique {A} (P : A -> Prop) a b a' : without P a b -> without P a' b -> a = a'.
Proof.
  intro W. revert a'. induction W as [|x a b Hx W IH|x a b Hx W IH]; intros a' W'.
  - now inversion W'.
  - inversion W' as [|y c d Hy W1|y c d Hy W1]; subst; [auto|contradiction].
  - inversion W' as [|y c d Hy W1|y c d Hy W1]; subst; [contradiction|]. f_equal. auto.
Qed.

Lemma groups_given g prior weight fits : groups_after Keqb (Some g) prior weight fits = Some g.
Proof. induction fits as [|c r IH]; [reflexivity|exact IH]. Qed.

Lemma groups_first prior weight columns fits :
  groups_after Keqb None prior weight (columns :: fits) = Some (init_feature_groups Keqb None prior weight columns).
Proof. apply groups_given. Qed.

(** Creation. *)
Lemma create_id (g : group_or_id K) : create_feature_id g None = (columns_of g, type_of g).
Proof. destruct g; reflexivity. Qed.

Lemma read_property_of properties (group : list K) : read_feature_property properties group HAS_MISSING = map (property_of properties) group.
Proof. apply map_ext. intro c. unfold read_feature_property_1, property_of. destruct properties as [d|]; [|reflexivity]. destruct (d c); reflexivity. Qed.

Lemma create_features_ok choice properties (groups : list (group_or_id K)) :
  (forall g, In g groups -> choice (columns_of g) (map (property_of properties) (columns_of g)) <> None) ->
  exists fs, create_features choice properties (Some groups) = Some fs /\
    Forall2 (fun g f => feature_id f = (columns_of g, type_of g) /\
                        fi_props f = map (property_of properties) (fi_group f) /\
                        choice (fi_group f) (fi_props f) = Some (fi_smoother f)) groups fs.
Proof.
  unfold create_features. induction groups as [|g r IH]; intro H.
  - exists []. split; [reflexivity|constructor].
  - destruct IH as (fs & E & F); [intros; apply H; now right|].
    specialize (H g (or_introl eq_refl)). cbn [create_features_list]. unfold make_feature at 1.
    rewrite create_id, read_property_of.
    destruct (choice (columns_of g) (map (property_of properties) (columns_of g))) as [s|] eqn:S; [|congruence].
    rewrite E. eexists. split; [reflexivity|]. constructor; [|exact F]. cbn. auto.
Qed.

Lemma create_features_fails choice properties (groups : list (group_or_id K)) :
  create_features choice properties (Some groups) = None <->
  exists g, In g groups /\ choice (columns_of g) (map (property_of properties) (columns_of g)) = None.
Proof.
  unfold create_features. induction groups as [|g r IH].
  - cbn. split; [discriminate|]. intros (g & [] & _).
  - cbn [create_features_list]. unfold make_feature at 1.
    rewrite create_id, read_property_of.
    destruct (choice (columns_of g) (map (property_of properties) (columns_of g))) as [s|] eqn:S.
    + destruct (create_features_list choice properties r) as [fs|].
      * split; [discriminate|]. intros (g' & [<-|I] & E).
        -- congruence.
        -- assert (X : Some fs = None) by (apply IH; eauto). discriminate.
      * split; [|reflexivity]. intros _. destruct (proj1 IH eq_refl) as (g' & I & E). exists g'. split; [now right|exact E].
    + split; [|reflexivity]. intros _. exists g. split; [now left|exact S].
Qed.

(** Lookup. *)
Lemma group_eqb_iff a b : group_eqb Keqb a b = true <-> a = b.
Proof.
  revert b. induction a as [|x r IH]; intros [|y s]; cbn; try (intuition congruence).
  rewrite andb_true_iff, Keqb_ok, IH. intuition congruence.
Qed.
Lemma type_eqb_iff a b : type_eqb a b = true <-> a = b.
Proof. destruct a, b; cbn; try (intuition congruence). rewrite String.eqb_eq. intuition congruence. Qed.

Lemma get_item_find fs g : get_item Keqb fs g =
  find (fun f => group_eqb Keqb (fi_group f) (columns_of g) && type_eqb (fi_type f) (type_of g)) fs.
Proof. unfold get_item. now rewrite create_id. Qed.

Lemma get_item_some fs g f : get_item Keqb fs g = Some f -> In f fs /\ feature_id f = (columns_of g, type_of g).
Proof.
  rewrite get_item_find. intro E. apply find_some in E. destruct E as (I & E). split; [exact I|].
  apply andb_prop in E. destruct E as (A & B). apply group_eqb_iff in A. apply type_eqb_iff in B.
  unfold feature_id. now rewrite A, B.
Qed.
Lemma get_item_none fs g : get_item Keqb fs g = None <-> ~ exists f, In f fs /\ feature_id f = (columns_of g, type_of g).
Proof.
  split.
  - rewrite get_item_find. intros E (f & I & X). pose proof (find_none _ _ E f I) as Y. cbv beta in Y.
    injection X as X1 X2. rewrite X1, X2 in Y.
    rewrite (proj2 (group_eqb_iff _ _) eq_refl), (proj2 (type_eqb_iff _ _) eq_refl) in Y. discriminate.
  - intro H. destruct (get_item Keqb fs g) as [f|] eqn:E; [|reflexivity]. exfalso. apply H.
    exists f. now apply get_item_some.
Qed.
Lemma get_item_unique fs f : NoDup (map feature_id fs) -> In f fs ->
  get_feature Keqb fs (Tuple (fi_group f)) (fi_type f) = Some f /\
  get_item Keqb fs (Id (fi_group f) (fi_type f)) = Some f.
Proof.
  intros N I.
  assert (G : get_item Keqb fs (Id (fi_group f) (fi_type f)) = Some f).
  { destruct (get_item Keqb fs (Id (fi_group f) (fi_type f))) as [f'|] eqn:E.
    - apply get_item_some in E. destruct E as (I' & E). cbn in E. f_equal.
      clear - N I I' E. induction fs as [|h fs IH]; [destruct I|]. cbn in N. inversion N as [|? ? N1 N2]; subst.
      assert (X : feature_id f' = feature_id f) by (exact E).
      destruct I as [<-|I], I' as [<-|I']; auto.
      + exfalso. apply N1. rewrite <- X. now apply in_map.
      + exfalso. apply N1. rewrite X. now apply in_map.
    - apply get_item_none in E. exfalso. apply E. exists f. split; [exact I|reflexivity]. }
  split; exact G.
Qed.

Lemma get_item_forms fs : (forall c : K, get_item Keqb fs (Single c) = get_item Keqb fs (Id [c] None)) /\
  (forall g, get_item Keqb fs (Tuple g) = get_item Keqb fs (Id g None)) /\
  (forall g t, get_feature Keqb fs (Tuple g) t = get_item Keqb fs (Id g t)) /\
  (forall c t, get_feature Keqb fs (Single c) t = get_item Keqb fs (Id [c] t)).
Proof. repeat split. Qed.
End F.

Lemma refit_witness : groups_after Nat.eqb None None (Some 9%nat) [[1; 9]; [1; 2; 9]]%nat = Some [Single 1%nat] /\
  init_feature_groups Nat.eqb None None (Some 9%nat) [1; 2; 9]%nat = [Single 1%nat; Single 2%nat].
Proof. split; reflexivity. Qed.

Lemma kind_and_smoother_unique normalized p k k' s s' :
  feature_kind p k -> smoother_of_kind normalized p k s -> feature_kind p k' -> smoother_of_kind normalized p k' s' -> s = s'.
Proof.
  intros F S F' S'. assert (k = k') by exact (feature_kind_unique p k k' F F'). subst k'.
  exact (smoother_of_kind_unique normalized p k s s' S S').
Qed.

Lemma unusable_exists : exists p,
  p = 2048 /\ choice_fct ChoiceWeightedMean true true (fun _ : list nat => None) [7%nat] [p] = None.
Proof. exists 2048. split; [reflexivity|apply choice_unusable_witness]. Qed.

Lemma refit_refuted : exists (columns columns' : list nat),
  groups_after Nat.eqb None None (Some 9%nat) [columns; columns'] <>
  Some (init_feature_groups Nat.eqb None None (Some 9%nat) columns').
Proof. exists [1; 9]%nat, [1; 2; 9]%nat. destruct refit_witness as [A B]. rewrite A, B. discriminate. Qed.

Lemma ex_c36 : choice_fct ChoiceWeightedMean true true (fun _ : list nat => None) [7%nat] [4105] =
    Some (NormalizedCut (Isotonic DecreasingOnly) Interpolating) /\ feature_kind 4105 Monotonic /\
  choice_fct ChoiceGroupBy true false (fun _ : list nat => None) [1; 2]%nat [4; 256] =
    Some (GroupByCB (Cut LinearExtrapolator Extrapolating) 2) /\ usable 256 /\ usable 16.
Proof.
  split; [vm_compute; reflexivity|]. split; [exact (feature_kind_of 4105)|]. split; [vm_compute; reflexivity|].
  split; [left; exists Linear; reflexivity|right; left; reflexivity].
Qed.

Lemma ex_c45 : init_feature_groups Nat.eqb None (Some 3%nat) (Some 9%nat) [1; 3; 2; 9]%nat = [Single 1; Single 2]%nat /\
  create_features (choice_fct ChoiceWeightedMean true true (fun _ => None)) (Some (fun c => if Nat.eqb c 1 then Some 2 else None))
    (Some [Single 1; Single 2]%nat) =
  Some [{| fi_group := [1%nat]; fi_type := None; fi_props := [2]; fi_smoother := NormalizedCut WeightedMeanNeighbors Discontinuous |};
        {| fi_group := [2%nat]; fi_type := None; fi_props := [16]; fi_smoother := NormalizedCut WeightedMean1D Discontinuous |}].
Proof. split; vm_compute; reflexivity. Qed.

Lemma ex_c57 : let f := {| fi_group := [1%nat]; fi_type := None; fi_props := [4]; fi_smoother := WeightedMean1D |} in
  let e := {| fi_group := [1%nat]; fi_type := Some "external"%string; fi_props := [4]; fi_smoother := WeightedMean1D |} in
  NoDup (map feature_id [f; e]) /\ get_feature Nat.eqb [f; e] (Single 1%nat) (Some "external"%string) = Some e.
Proof.
  cbn. split; [|reflexivity]. constructor; [intros [X|[]]; discriminate|]. constructor; [intros []|constructor].
Qed.
