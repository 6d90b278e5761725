(** Interaction terms (C43, C70, C71). *)
From Coq Require Import ZArith QArith List Bool Arith String Lia Permutation Sorted.
From Verif.Model Require Import Num LexBins Interactions.
From Verif.Spec Require Import LexSpec InteractionSpec.
From Verif.Proofs Require Import NumFacts FnumOrder LexFacts.
Import ListNotations.

(** ** C43 *)
Lemma sub_nil_l {A} (l : list A) : subsequence [] l.
Proof. induction l; constructor; auto. Qed.

Lemma combinations_iff {A} (l : list A) : forall n t,
  In t (combinations l n) <-> subsequence t l /\ List.length t = n.
Proof.
  induction l as [|x r IH]; intros [|m] t; cbn [combinations].
  - split; [intros [<-|[]]; split; [constructor|reflexivity]|].
    intros [_ H]. destruct t; [left; auto|discriminate].
  - split; [intros []|]. intros [H L]. inversion H; subst. discriminate.
  - split; [intros [<-|[]]; split; [apply sub_nil_l|reflexivity]|].
    intros [_ H]. destruct t; [left; auto|discriminate].
  - rewrite in_app_iff, in_map_iff. split.
    + intros [(s & <- & Hs)|H].
      * apply IH in Hs. destruct Hs. split; [apply sub_take; auto|cbn; lia].
      * apply IH in H. destruct H. split; [constructor; auto|auto].
    + intros [H L]. inversion H as [|y s l Hs|y s l Hs]; subst.
      * right. apply IH. split; auto.
      * left. exists s. split; auto. apply IH. split; auto.
Qed.

Lemma candidates_iff {A} (features : list A) dim t :
  In t (create_interactions features dim) <->
  subsequence t features /\ (2 <= List.length t <= dim)%nat.
Proof.
  unfold create_interactions. rewrite in_flat_map. split.
  - intros (n & Hn & Ht). apply in_seq in Hn. apply combinations_iff in Ht. destruct Ht. split; auto. lia.
  - intros [H L]. exists (List.length t). split; [apply in_seq; lia|]. apply combinations_iff. auto.
Qed.

Lemma sub_incl {A} (s l : list A) : subsequence s l -> incl s l.
Proof.
  induction 1; intros y Hy; auto; [right; auto|].
  destruct Hy as [<-|Hy]; [left; auto|right; auto].
Qed.

Lemma sub_NoDup {A} (s l : list A) : subsequence s l -> NoDup l -> NoDup s.
Proof.
  induction 1 as [|x s l H IH|x s l H IH]; intro N; auto; inversion N; subst; auto.
  constructor; auto. intro Hx. apply (sub_incl _ _ H) in Hx. auto.
Qed.

Lemma candidates_sets {A} (features : list A) dim t : NoDup features ->
  In t (create_interactions features dim) -> feature_set features dim t.
Proof.
  intros N H. apply candidates_iff in H. destruct H as [H L].
  split; [eapply sub_NoDup; eauto|split; [apply sub_incl; auto|auto]].
Qed.

(** Two subsequences of a list without repetitions with the same elements are equal. *)
Lemma sub_perm_eq {A} (l : list A) : NoDup l -> forall s t,
  subsequence s l -> subsequence t l -> Permutation s t -> s = t.
Proof.
  induction l as [|x r IH]; intros N s t Hs Ht P.
  - inversion Hs; inversion Ht; subst; auto.
  - inversion N as [|? ? Nx Nr]; subst.
    inversion Hs as [|? s' ? Hs'|? s' ? Hs']; inversion Ht as [|? t' ? Ht'|? t' ? Ht']; subst.
    + apply IH; auto.
    + exfalso. apply Nx, (sub_incl _ _ Hs'). apply (Permutation_in x (Permutation_sym P)). left; auto.
    + exfalso. apply Nx, (sub_incl _ _ Ht'). apply (Permutation_in x P). left; auto.
    + f_equal. apply IH; auto. eapply Permutation_cons_inv; eauto.
Qed.


Lemma NoDup_app' {A} (a b : list A) : NoDup a -> NoDup b -> (forall x, In x a -> ~ In x b) -> NoDup (a ++ b).
Proof.
  induction 1 as [|x a Hx _ IH]; intros Hb D; cbn; auto. constructor.
  - rewrite in_app_iff. intros [H|H]; [auto|]. apply (D x); [left; auto|auto].
  - apply IH; auto. intros y Hy. apply D. right; auto.
Qed.

Lemma NoDup_map_cons {A} (x : A) l : NoDup l -> NoDup (map (cons x) l).
Proof.
  induction 1 as [|t l H _ IH]; cbn; constructor; auto.
  rewrite in_map_iff. intros (s & E & Hs). injection E as ->. auto.
Qed.

Lemma combinations_NoDup {A} (l : list A) : NoDup l -> forall n, NoDup (combinations l n).
Proof.
  induction 1 as [|x r Hx N IH]; intros [|m]; cbn [combinations]; try (constructor; [intros []|constructor]); [constructor|].
  apply NoDup_app'; [apply NoDup_map_cons; auto|auto|].
  intros t Ht Ht'. apply in_map_iff in Ht. destruct Ht as (s & <- & _).
  apply combinations_iff in Ht'. destruct Ht' as [Ht' _]. apply Hx, (sub_incl _ _ Ht'). left; auto.
Qed.

Lemma candidates_NoDup {A} (features : list A) dim : NoDup features -> NoDup (create_interactions features dim).
Proof.
  intro N. unfold create_interactions.
  pose proof (seq_NoDup (dim - 1) 2) as S. induction S as [|n l Hn _ IH]; cbn; [constructor|].
  apply NoDup_app'; auto; [apply combinations_NoDup; auto|].
  intros t Ht Ht'. apply combinations_iff in Ht. destruct Ht as [_ <-].
  apply in_flat_map in Ht'. destruct Ht' as (m & Hm & Ht'). apply combinations_iff in Ht'.
  destruct Ht' as [_ <-]. auto.
Qed.

(** Every set of features can be put into the order of the list. *)
Lemma set_as_subsequence {A} (l : list A) : NoDup l -> forall s, NoDup s -> incl s l ->
  exists t, subsequence t l /\ Permutation s t.
Proof.
  induction 1 as [|x r Hx N IH]; intros s Ns I.
  - exists []. split; [constructor|]. destruct s as [|y s]; auto. exfalso. apply (I y). left; auto.
  - assert (D : In x s \/ ~ In x s).
    { assert (G : forall u, incl u (x :: r) -> In x u \/ ~ In x u).
      { induction u as [|y u IHu]; intro Iu; [right; auto|].
        destruct (IHu (fun z Hz => Iu z (or_intror Hz))) as [H|H]; [left; right; auto|].
        destruct (Iu y (or_introl eq_refl)) as [<-|Hy]; [left; left; auto|].
        right. intros [->|H']; auto. }
      apply G; auto. }
    destruct D as [D|D].
    + apply in_split in D. destruct D as (a & b & ->).
      apply NoDup_remove in Ns. destruct Ns as [Ns Nx].
      destruct (IH (a ++ b) Ns) as (t & Ht & P).
      { intros y Hy. destruct (I y) as [<-|H]; auto; [|contradiction].
        apply in_app_iff in Hy. apply in_app_iff. cbn. tauto. }
      exists (x :: t). split; [apply sub_take; auto|].
      apply Permutation_trans with (x :: a ++ b); [apply Permutation_sym, Permutation_middle|constructor; auto].
    + destruct (IH s Ns) as (t & Ht & P).
      { intros y Hy. destruct (I y Hy) as [<-|H]; auto. contradiction. }
      exists t. split; [constructor; auto|auto].
Qed.

Lemma candidates_once {A} (features : list A) dim s : NoDup features ->
  feature_set features dim s -> listed_once s (create_interactions features dim).
Proof.
  intros N (Ns & I & L). destruct (set_as_subsequence features N s Ns I) as (t & Ht & P).
  assert (Hin : In t (create_interactions features dim)).
  { apply candidates_iff. split; auto. rewrite <- (Permutation_length P). auto. }
  apply In_nth_error in Hin. destruct Hin as (i & Hi). exists i. split; [exists t; auto|].
  intros j u Hj Pu.
  assert (u = t).
  { apply (sub_perm_eq features N); auto; [|apply Permutation_trans with s; [apply Permutation_sym|]; auto].
    apply nth_error_In in Hj. apply candidates_iff in Hj. tauto. }
  subst u. pose proof (candidates_NoDup features dim N) as ND.
  rewrite NoDup_nth_error in ND. apply ND; [apply nth_error_Some; congruence|congruence].
Qed.

(** ** C70 *)
Lemma valid_holds n row t : holds_tuple row t -> row_valid n row = true -> List.length row = List.length n -> valid_tuple n t.
Proof.
  intros H V L. apply row_valid_spec in V; auto. unfold valid_tuple. revert row t H L V.
  induction n as [|k n IH]; intros row t H L V.
  - destruct row; [|discriminate]. inversion H. constructor.
  - destruct row as [|x row]; [discriminate|]. inversion H as [|? z ? t' (q & -> & Eq) H']; subst.
    inversion V as [|? ? ? ? V1 V2]; subst. constructor; [|apply (IH row); auto].
    destruct V1 as (_ & V1 & V3). apply fle_Fin in V1. apply flt_Fin in V3. rewrite Eq in V1, V3.
    change 0%Q with (inject_Z 0) in V1. rewrite <- Zle_Qle in V1. rewrite <- Zlt_Qlt in V3. auto.
Qed.

Section Column.
  Variables (binned : frame) (term : list string).
  Hypothesis cells : forall row f, In row binned -> In f term -> exists k, bin_cell (row f) k.
  Let rows := map (fun row => map row term) binned.
  Let n := data_n_bins (List.length term) rows.

  Lemma rows_length r : In r rows -> List.length r = List.length term.
  Proof. unfold rows. rewrite in_map_iff. intros (s & <- & _). apply map_length. Qed.

  Lemma n_length : List.length n = List.length term.
  Proof.
    unfold n, data_n_bins. pose proof rows_length as RL. set (M := List.length term) in *. clearbody M.
    assert (Hall : forall r, In r (filter row_finite_semi_positive rows) -> List.length r = M).
    { intros r Hr. apply filter_In in Hr. apply RL. tauto. }
    destruct (filter row_finite_semi_positive rows) as [|r rs]; [apply repeat_length|].
    rewrite map_length.
    assert (L : forall rs r, List.length r = M -> (forall s, In s rs -> List.length s = M) ->
       List.length (fold_left col_max rs r) = M).
    { clear. induction rs as [|s rs IH]; intros r Hr H; cbn; auto. apply IH; [|intros; apply H; right; auto].
      pose proof (H s (or_introl eq_refl)) as Hs. clear -Hr Hs. revert s M Hr Hs.
      induction r as [|x r IH]; intros [|y s] M Hr Hs; cbn in *; auto; try lia.
      destruct M; [discriminate|]. f_equal. apply IH; lia. }
    apply L; [apply Hall; left; auto|intros; apply Hall; right; auto].
  Qed.

  Definition lost (row : string -> fnum) := exists f, In f term /\ row f = Fin (inject_Z (-1)).

  Lemma row_cases row : In row binned ->
    (lost row /\ row_valid n (map row term) = false) \/
    (~ lost row /\ row_valid n (map row term) = true /\
     exists t, map row term = map (fun k => Fin (inject_Z k)) t /\ holds_tuple (map row term) t /\ valid_tuple n t).
  Proof.
    intro Hr.
    assert (Hin : In (map row term) rows) by (apply in_map_iff; exists row; auto).
    destruct (row_finite_semi_positive (map row term)) eqn:E.
    - right. split.
      { intros (f & Hf & Ef). unfold row_finite_semi_positive in E. apply andb_prop in E. destruct E as [_ E].
        rewrite forallb_forall in E. specialize (E (row f) (in_map _ _ _ Hf)). rewrite Ef in E. discriminate. }
      pose proof (data_rows_valid (List.length term) rows _ rows_length Hin E) as V. split; auto.
      assert (G : exists t, map row term = map (fun k => Fin (inject_Z k)) t).
      { clear -cells Hr. induction term as [|f l IH]; [exists []; auto|].
        destruct (cells row f Hr (or_introl eq_refl)) as (k & Ek & _).
        destruct IH as (t & Et); [intros; apply (cells row0 f0); auto; right; auto|].
        exists (k :: t). cbn. congruence. }
      destruct G as (t & Et). exists t. split; auto.
      assert (Hh : holds_tuple (map row term) t).
      { rewrite Et. clear. induction t; constructor; auto. exists (inject_Z a). split; auto. apply Qeq_refl. }
      split; auto. apply (valid_holds n _ _ Hh V). rewrite map_length, n_length. reflexivity.
    - left. apply semi_positive_iff in E. destruct E as (x & Hx & Hbad).
      apply in_map_iff in Hx. destruct Hx as (f & <- & Hf).
      destruct (cells row f Hr Hf) as (k & Ek & Hk). rewrite Ek in Hbad.
      assert (k = -1)%Z.
      { destruct Hbad as [H|H]; [discriminate|]. apply flt_Fin in H. change 0%Q with (inject_Z 0) in H.
        rewrite <- Zlt_Qlt in H. lia. }
      subst k. split; [exists f; auto|].
      destruct (row_valid n (map row term)) eqn:V; auto. exfalso.
      apply row_valid_spec in V; [|rewrite map_length, n_length; auto].
      assert (G : forall a b, Forall2 (fun (k : Z) x => isfinite x = true /\ fle (Fin 0) x = true /\ flt x (Fin (inject_Z k)) = true) a b ->
         In (Fin (inject_Z (-1))) b -> False).
      { clear. induction 1 as [|k x a b (H1 & H2 & H3) _ IH]; intro Hin; [destruct Hin|].
        destruct Hin as [->|Hin]; auto. discriminate. }
      apply (G n (map row term)); auto. rewrite <- Ek. apply in_map; auto.
  Qed.

  Lemma column_value i row : nth_error binned i = Some row ->
    nth_error (interaction_column binned term) i =
    Some (if row_valid n (map row term) then lex_value n (map row term)
          else if existsb (row_valid n) rows then prodZ n else 0%Z).
  Proof.
    intro H. unfold interaction_column.
    change (lexicographic_binnos (List.length term) (map (fun r => map r term) binned) None)
      with (lexicographic_binnos (List.length term) rows (Some n)).
    apply lex_binnos_nth. unfold rows. rewrite nth_error_map, H. reflexivity.
  Qed.

  Lemma column_distinguishes i j row row' :
    nth_error binned i = Some row -> nth_error binned j = Some row' ->
    (nth_error (interaction_column binned term) i = nth_error (interaction_column binned term) j <->
     (forall f, In f term -> row f = row' f) \/ (lost row /\ lost row')).
  Proof.
    intros Hi Hj. rewrite (column_value i row Hi), (column_value j row' Hj).
    pose proof (nth_error_In _ _ Hi) as Ri. pose proof (nth_error_In _ _ Hj) as Rj.
    assert (EX : forall r, In r binned -> row_valid n (map r term) = true -> existsb (row_valid n) rows = true).
    { intros r Hr V. apply existsb_exists. exists (map r term). split; auto. apply in_map_iff. exists r; auto. }
    assert (LV : forall r t, holds_tuple (map r term) t -> valid_tuple n t -> (0 <= lex_value n (map r term) < prodZ n)%Z).
    { intros r t Hh Hv. rewrite (lex_value_number n _ t Hh (valid_length _ _ Hv)), size_prod. apply number_range; auto. }
    assert (LE : forall r r', lost r -> (forall f, In f term -> r f = r' f) -> lost r').
    { intros r r' (f & Hf & Ef) G. exists f. split; auto. rewrite <- G; auto. }
    destruct (row_cases row Ri) as [(L & V)|(L & V & t & Et & Hh & Hv)];
    destruct (row_cases row' Rj) as [(L' & V')|(L' & V' & t' & Et' & Hh' & Hv')]; rewrite V, V'.
    - split; auto.
    - rewrite (EX row' Rj V'). split.
      + intro E. injection E as E. pose proof (LV row' t' Hh' Hv'). lia.
      + intros [G|[_ G]]; [|contradiction]. exfalso. apply L'. apply (LE row); auto.
    - rewrite (EX row Ri V). split.
      + intro E. injection E as E. pose proof (LV row t Hh Hv). lia.
      + intros [G|[G _]]; [|contradiction]. exfalso. apply L. apply (LE row'); auto. intros; symmetry; auto.
    - rewrite (lex_value_number n _ t Hh (valid_length _ _ Hv)), (lex_value_number n _ t' Hh' (valid_length _ _ Hv')).
      split.
      + intro E. injection E as E. apply number_injective in E; auto. subst t'. left.
        rewrite <- Et' in Et. clear -Et. intros f Hf. revert Et Hf.
        induction term as [|g l IH]; cbn; [tauto|]. intros E Hf. injection E as E1 E2.
        destruct Hf as [<-|Hf]; auto.
      + intros [G|[G _]]; [|contradiction]. f_equal. f_equal.
        assert (EM : map row term = map row' term) by (apply map_ext_in; auto).
        rewrite Et, Et' in EM. clear -EM. revert t' EM.
        induction t as [|k t IH]; intros [|k' t'] E; cbn in E; try discriminate; auto.
        injection E as E1 E2. f_equal; auto.
  Qed.
End Column.

(** ** C71 *)
(** Ascending scores, equal ones in the order of their columns. *)
Definition before (p q : fnum * nat) : Prop :=
  fle (fst p) (fst q) = true /\ (fle (fst q) (fst p) = true -> (snd p < snd q)%nat).

Lemma before_trans p q r : before p q -> before q r -> before p r.
Proof.
  intros [A1 A2] [B1 B2]. split; [eapply fle_trans; eauto|]. intro H.
  assert (fle (fst q) (fst p) = true) by (eapply fle_trans; eauto).
  assert (fle (fst r) (fst q) = true) by (eapply fle_trans; eauto).
  apply Nat.lt_trans with (snd q); auto.
Qed.

Lemma insert_perm x l : Permutation (insert_score x l) (x :: l).
Proof.
  induction l as [|y r IH]; cbn; auto. destruct (fle (fst x) (fst y)); auto.
  apply Permutation_trans with (y :: x :: r); [constructor; auto|apply perm_swap].
Qed.

Lemma insert_sorted x l : fst x <> NaN -> (forall y, In y l -> fst y <> NaN /\ (snd x < snd y)%nat) ->
  StronglySorted before l -> StronglySorted before (insert_score x l).
Proof.
  intros Nx H S. induction S as [|y r S IH F]; cbn; [constructor; constructor|].
  destruct (H y (or_introl eq_refl)) as [Ny Iy]. rewrite Forall_forall in F.
  destruct (fle (fst x) (fst y)) eqn:E.
  - constructor; [constructor; auto; apply Forall_forall; auto|].
    assert (B : before x y) by (split; auto).
    constructor; auto. apply Forall_forall. intros z Hz. eapply before_trans; eauto.
  - constructor; [apply IH; intros; apply H; right; auto|].
    apply Forall_forall. intros z Hz. apply (Permutation_in z (insert_perm x r)) in Hz.
    destruct Hz as [<-|Hz]; auto. split; [apply fle_total; auto|congruence].
Qed.

Lemma combine_seq_bounds {A} (l : list A) : forall a p, In p (combine l (seq a (List.length l))) -> (a <= snd p)%nat /\ In (fst p) l.
Proof.
  induction l as [|x r IH]; intros a p H; cbn in H; [destruct H|].
  destruct H as [<-|H]; cbn; [auto|]. apply IH in H. destruct H. split; [lia|auto].
Qed.

Lemma order_sorted (l : list fnum) : Forall (fun s => s <> NaN) l -> forall a,
  let K := combine l (seq a (List.length l)) in
  StronglySorted before (fold_right insert_score [] K) /\ Permutation (fold_right insert_score [] K) K.
Proof.
  induction 1 as [|x r Hx F IH]; intros a; cbn; [split; constructor|].
  destruct (IH (S a)) as [S P]. split.
  - apply insert_sorted; auto. intros y Hy. apply (Permutation_in y P) in Hy.
    apply combine_seq_bounds in Hy. destruct Hy as [Hy Hin]. rewrite Forall_forall in F. cbn. split; [auto|lia].
  - eapply Permutation_trans; [apply insert_perm|]. constructor; auto.
Qed.

Lemma combine_seq_In {A} (l : list A) : forall a p,
  In p (combine l (seq a (List.length l))) <-> exists i, nth_error l i = Some (fst p) /\ (snd p = a + i)%nat.
Proof.
  induction l as [|x r IH]; intros a [s i]; cbn.
  - split; [intros []|]. intros ([|j] & H & _); discriminate.
  - rewrite IH. cbn. split.
    + intros [E|(j & Hj & E)]; [injection E as <- <-; exists 0%nat; split; auto|]. exists (S j). split; auto. lia.
    + intros ([|j] & Hj & E); cbn in Hj; [injection Hj as <-; left; f_equal; lia|right; exists j; split; auto; lia].
Qed.

Lemma combine_seq_snd {A} (l : list A) : forall a, map snd (combine l (seq a (List.length l))) = seq a (List.length l).
Proof. induction l as [|x r IH]; intros a; cbn; auto. rewrite IH. reflexivity. Qed.

Lemma sorted_app {A} (R : A -> A -> Prop) a b : StronglySorted R (a ++ b) -> forall x y, In x a -> In y b -> R x y.
Proof.
  induction a as [|z a IH]; cbn; intros S x y Hx Hy; [destruct Hx|].
  inversion S as [|? ? S' F]; subst. rewrite Forall_forall in F.
  destruct Hx as [<-|Hx]; [apply F, in_app_iff; auto|apply IH; auto].
Qed.

Lemma clean_not_nan s : clean_nan s <> NaN.
Proof. destruct s; discriminate. Qed.

Lemma filter_existsb_length n (chosen : list nat) : NoDup chosen -> (forall i, In i chosen -> (i < n)%nat) ->
  List.length (filter (fun i => existsb (Nat.eqb i) chosen) (seq 0 n)) = List.length chosen.
Proof.
  intros N B. apply Permutation_length, NoDup_Permutation; auto; [apply NoDup_filter, seq_NoDup|].
  intro i. rewrite filter_In, in_seq, existsb_exists. split.
  - intros [_ (j & Hj & E)]. apply Nat.eqb_eq in E. subst; auto.
  - intro Hi. split; [specialize (B i Hi); lia|exists i; split; auto; apply Nat.eqb_refl].
Qed.

Lemma support_mask_spec k scores :
  List.length (support_mask k scores) = List.length scores /\
  List.length (filter (fun b => b) (support_mask k scores)) = Nat.min k (List.length scores) /\
  forall i j s t, nth_error scores i = Some s -> nth_error scores j = Some t ->
    nth_error (support_mask k scores) i = Some true -> nth_error (support_mask k scores) j = Some false ->
    before (clean_nan t, j) (clean_nan s, i).
Proof.
  unfold support_mask. cbv zeta. set (cs := map clean_nan scores).
  assert (Lc : List.length cs = List.length scores) by apply map_length.
  assert (F : Forall (fun s => s <> NaN) cs).
  { apply Forall_forall. intros s Hs. apply in_map_iff in Hs. destruct Hs as (r & <- & _). apply clean_not_nan. }
  destruct (order_sorted cs F 0) as [S P]. unfold argsort. cbv zeta in S, P. set (K := combine cs (seq 0 (List.length cs))) in *.
  set (L := fold_right insert_score [] K) in *.
  assert (LL : List.length L = List.length scores).
  { rewrite (Permutation_length P). unfold K. rewrite combine_length, seq_length. lia. }
  rewrite (map_length snd L), LL. set (d := (List.length scores - k)%nat). rewrite skipn_map.
  set (chosen := map snd (skipn d L)).
  assert (NL : NoDup (map snd L)).
  { apply (Permutation_NoDup (Permutation_map snd (Permutation_sym P))). unfold K. rewrite combine_seq_snd. apply seq_NoDup. }
  assert (NC : NoDup chosen /\ forall i, In i chosen -> (i < List.length scores)%nat).
  { rewrite <- (firstn_skipn d L), map_app in NL. split.
    - clear -NL. unfold chosen. revert NL. generalize (map snd (firstn d L)) as a. induction a as [|x a IH]; cbn; auto.
      intro N. inversion N; subst. auto.
    - intros i Hi. unfold chosen in Hi. apply in_map_iff in Hi. destruct Hi as (p & <- & Hp).
      assert (In p L) by (rewrite <- (firstn_skipn d L); apply in_app_iff; auto).
      apply (Permutation_in p P) in H. unfold K in H. apply combine_seq_In in H. destruct H as (i & Hi & ->).
      rewrite <- Lc. apply nth_error_Some. cbn [Nat.add]. congruence. }
  destruct NC as [NC BC].
  assert (LC : List.length chosen = Nat.min k (List.length scores)).
  { unfold chosen. rewrite map_length, skipn_length, LL. unfold d. lia. }
  split; [rewrite map_length, seq_length; auto|]. split.
  - rewrite <- LC, <- (filter_existsb_length (List.length scores) chosen NC BC).
    generalize (seq 0 (List.length scores)) as l. induction l as [|i l IH]; cbn; auto.
    destruct (existsb (Nat.eqb i) chosen); cbn; auto.
  - intros i j s t Hs Ht Mi Mj.
    assert (GN : forall i b, nth_error (map (fun i => existsb (Nat.eqb i) chosen) (seq 0 (List.length scores))) i = Some b ->
       existsb (Nat.eqb i) chosen = b).
    { intros x b Hx. rewrite nth_error_map in Hx. destruct (nth_error (seq 0 (List.length scores)) x) as [m|] eqn:Em; [|discriminate].
      cbn in Hx. injection Hx as <-.
      assert (Lx : (x < List.length scores)%nat) by (rewrite <- (seq_length (List.length scores) 0); apply nth_error_Some; congruence).
      rewrite (nth_error_nth' _ 0%nat) in Em by (rewrite seq_length; auto). rewrite seq_nth in Em by auto. injection Em as <-. auto. }
    apply GN in Mi. apply GN in Mj.
    apply (sorted_app before (firstn d L) (skipn d L)); [rewrite firstn_skipn; auto| |].
    + assert (Hin : In (clean_nan t, j) L).
      { apply (Permutation_in _ (Permutation_sym P)). apply combine_seq_In. exists j. cbn. split; auto.
        unfold cs. rewrite nth_error_map, Ht. auto. }
      rewrite <- (firstn_skipn d L) in Hin. apply in_app_iff in Hin. destruct Hin as [H|H]; auto.
      exfalso. assert (existsb (Nat.eqb j) chosen = true); [|congruence].
      apply existsb_exists. exists j. split; [|apply Nat.eqb_refl]. unfold chosen. apply in_map_iff. exists (clean_nan t, j). auto.
    + apply existsb_exists in Mi. destruct Mi as (i' & Hi & E). apply Nat.eqb_eq in E. subst i'.
      unfold chosen in Hi. apply in_map_iff in Hi. destruct Hi as ([s' i'] & Ei & Hp). cbn in Ei. subst i'.
      assert (Hin : In (s', i) L) by (rewrite <- (firstn_skipn d L); apply in_app_iff; auto).
      apply (Permutation_in _ P) in Hin. apply combine_seq_In in Hin. destruct Hin as (m & Hm & E). cbn in Hm, E. subst m.
      unfold cs in Hm. rewrite nth_error_map, Hs in Hm. cbn in Hm. injection Hm as <-. auto.
Qed.

Lemma mask_sub {A} m : forall (l : list A), subsequence (apply_mask m l) l.
Proof.
  induction m as [|b m IH]; intros [|x l]; cbn; try apply sub_nil_l.
  destruct b; [apply sub_take|apply sub_skip]; auto.
Qed.

Lemma mask_length {A} m : forall (l : list A), List.length m = List.length l ->
  List.length (apply_mask m l) = List.length (filter (fun b => b) m).
Proof. induction m as [|b m IH]; intros [|x l] H; cbn in *; auto; try discriminate. destruct b; cbn; auto. Qed.

Lemma mask_In {A} m : forall (l : list A) x, List.length m = List.length l ->
  (In x (apply_mask m l) <-> exists i, nth_error l i = Some x /\ nth_error m i = Some true).
Proof.
  induction m as [|b m IH]; intros [|y l] x H; cbn in H; try discriminate.
  - cbn. split; [intros []|]. intros ([|i] & E & _); discriminate.
  - assert (G : In x (apply_mask (b :: m) (y :: l)) <-> (b = true /\ y = x) \/ In x (apply_mask m l)).
    { cbn. destruct b; cbn; split; try tauto; try (intros [[? ?]|?]; auto; discriminate). }
    rewrite G, IH by lia. split.
    + intros [[-> ->]|(i & H1 & H2)]; [exists 0%nat; auto|exists (S i); auto].
    + intros ([|i] & H1 & H2); cbn in H1, H2; [left; split; congruence|right; exists i; auto].
Qed.

Lemma worth_clean s t : (forall u, u = s \/ u = t -> u = NaN \/ fle (Fin 0) u = true) ->
  fle (clean_nan t) (clean_nan s) = true -> worth t s.
Proof.
  intros H L. destruct t as [t| | |], s as [s| | |]; cbn; auto; try exact L.
  - exfalso. destruct (H (Fin t) (or_intror eq_refl)) as [E|E]; [discriminate|].
    cbn [clean_nan isnan] in L. pose proof (fle_trans _ _ _ E L) as C. apply fle_Fin in C.
    revert C. apply Qlt_not_le. reflexivity.
  - discriminate.
  - destruct (H NInf (or_intror eq_refl)) as [E|E]; discriminate.
Qed.

Lemma selection score_func binned features dim k :
  let terms := create_interactions features dim in
  let score t := score_func (interaction_column binned t) in
  let selected := select_interaction_terms score_func binned features dim k in
  NoDup features ->
  (forall t, In t terms -> score t = NaN \/ fle (Fin 0) (score t) = true) ->
  subsequence selected terms /\ List.length selected = Nat.min k (List.length terms) /\
  forall t u, In t terms -> ~ In t selected -> In u selected -> worth (score t) (score u).
Proof.
  intros terms score selected N Hs. unfold selected, select_interaction_terms, build_binned_interaction_features.
  rewrite !map_map. cbn [fst snd]. rewrite map_id. fold terms.
  change (fun x => score_func (interaction_column binned x)) with score.
  destruct (support_mask_spec k (map score terms)) as (L1 & L2 & L3). rewrite map_length in L1, L2.
  split; [apply mask_sub|]. split; [rewrite mask_length; auto|].
  intros t u Ht Hnt Hu.
  apply mask_In in Hu; auto. destruct Hu as (i & Ui & Mi).
  apply In_nth_error in Ht. destruct Ht as (j & Hj).
  assert (Mj : nth_error (support_mask k (map score terms)) j = Some false).
  { destruct (nth_error (support_mask k (map score terms)) j) as [[|]|] eqn:E; auto.
    - exfalso. apply Hnt. apply mask_In; auto. exists j. auto.
    - exfalso. apply nth_error_None in E. assert (j < List.length terms)%nat by (apply nth_error_Some; congruence). lia. }
  destruct (L3 i j (score u) (score t)) as [B _]; auto.
  - rewrite nth_error_map, Ui. auto.
  - rewrite nth_error_map, Hj. auto.
  - apply worth_clean; auto. intros v [->| ->]; apply Hs; eapply nth_error_In; eauto.
Qed.

(** ** Examples *)
Definition ex_features := ["a"; "b"; "c"]%string.
Definition ex_frame : frame :=
  map (fun t f => Fin (inject_Z (if String.eqb f "a" then fst (fst t) else if String.eqb f "b" then snd (fst t) else snd t)))
  [((0, 1), 2); ((1, 1), 0); ((0, -1), 2); ((0, 1), 0)]%Z.
Definition ex_score (col : list Z) : fnum :=
  match col with [a; b; _; _] => if Z.eqb a b then NaN else Fin (inject_Z (Z.abs (a - b))) | _ => NaN end.

Lemma ex_candidates : create_interactions ex_features 3 =
  [["a"; "b"]; ["a"; "c"]; ["b"; "c"]; ["a"; "b"; "c"]]%string /\ NoDup ex_features /\
  feature_set ex_features 2 ["c"; "a"]%string.
Proof.
  assert (N : NoDup ex_features) by (repeat constructor; cbn; intuition discriminate).
  split; [reflexivity|]. split; auto. split; [repeat constructor; cbn; intuition discriminate|].
  split; [intros x Hx; cbn in *; tauto|cbn; lia].
Qed.

Lemma ex_columns :
  (forall row f, In row ex_frame -> In f ["a"; "b"]%string -> exists k, bin_cell (row f) k) /\
  map (fun t => interaction_column ex_frame t) (create_interactions ex_features 2) =
    [[1; 3; 4; 1]; [2; 3; 2; 0]; [5; 3; 6; 3]]%Z.
Proof.
  split; [|reflexivity].
  intros row f Hr Hf. cbn in Hr, Hf.
  destruct Hf as [<-|[<-|[]]]; repeat (destruct Hr as [<-|Hr]; [eexists; split; [reflexivity|vm_compute; discriminate]|]); destruct Hr.
Qed.

Lemma ex_selection :
  select_interaction_terms ex_score ex_frame ex_features 2 2 = [["a"; "b"]; ["b"; "c"]]%string /\
  (forall t, In t (create_interactions ex_features 2) ->
     ex_score (interaction_column ex_frame t) = NaN \/ fle (Fin 0) (ex_score (interaction_column ex_frame t)) = true).
Proof.
  split; [reflexivity|]. intros t Ht. cbn in Ht.
  repeat (destruct Ht as [<-|Ht]; [right; reflexivity|]). destruct Ht.
Qed.
