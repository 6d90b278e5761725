(** Booking of contributions. *)
From Coq Require Import ZArith List Bool String Reals Lia Lra.
From Verif.Model Require Import Num LexBins Train Predict Importance.
From Verif.Spec Require Import TrainSpec PredictSpec ImportanceSpec.
From Verif.Proofs Require Import TrainFacts PredictFacts ImportanceFacts.
Import ListNotations.
Local Open Scope R_scope.

Lemma set_col_same d c v : set_col d c v c = Some v.
Proof. unfold set_col. rewrite String.eqb_refl. reflexivity. Qed.
Lemma set_col_other d c v x : x <> c -> set_col d c v x = d x.
Proof. intro H. unfold set_col. destruct (String.eqb_spec x c); congruence. Qed.
Lemma set_col_rows n d c v : frame_rows n d -> List.length v = n -> frame_rows n (set_col d c v).
Proof.
  intros H Hv x w Hx. unfold set_col in Hx. destruct (String.eqb_spec x c); [injection Hx as <-; auto|eauto].
Qed.

(** Effect of [df[c] += pred] (sign 1) or [df[c] -= pred] on all columns. *)
Definition col_op (rem : bool) := if rem then frame_sub else frame_add.
Definition sgn (rem : bool) (x : R) : R := if rem then - x else x.
Lemma col_op_effect rem n d c p d' : frame_rows n d -> List.length p = n -> col_op rem d c p = Some d' ->
  frame_rows n d' /\ d c <> None /\ d' c <> None /\ (forall j, entry d' c j = entry d c j + sgn rem (nth j p 0)) /\
  (forall x, x <> c -> d' x = d x).
Proof.
  intros Hd Hp H. assert (exists v, d c = Some v) as (v & Hv).
  { destruct rem; unfold col_op, frame_add, frame_sub in H; destruct (d c); eauto; discriminate. }
  pose proof (Hd c v Hv) as Lv.
  set (w := if rem then vsub v p else vadd v p).
  assert (Hw : d' = set_col d c w).
  { destruct rem; unfold col_op, frame_add, frame_sub in H; rewrite Hv in H; injection H as <-; reflexivity. }
  assert (Lw : List.length w = n). { unfold w. destruct rem; unfold vsub, vadd; rewrite map2_length; lia. }
  subst d'. split; [apply set_col_rows; auto|]. split; [congruence|]. split; [rewrite set_col_same; congruence|]. split.
  - intro j. unfold entry. rewrite set_col_same, Hv. unfold w, sgn. destruct rem; [rewrite nth_vsub|rewrite nth_vadd]; lia || lra.
  - intros x Hx. apply set_col_other; auto.
Qed.

Definition category (cats : option (cat_key -> option string)) (g : list string) : option (option string) :=
  get_influence_category g cats.
Lemma category_spec cats g c : get_influence_category g cats = Some (Some c) <-> category_of cats g c.
Proof.
  unfold get_influence_category, category_of. destruct cats as [d|].
  - split.
    + intro H. exists d. split; auto. destruct (d (KTuple g)) as [c'|]; [injection H as ->; auto|].
      right. split; auto. destruct g as [|s [|? ?]]; try discriminate. exists s. split; auto.
      destruct (d (KName s)); [congruence|discriminate].
    + intros (d' & E & H). injection E as <-. destruct H as [H|[H (s & -> & H')]]; rewrite H; auto. rewrite H'. reflexivity.
  - split; [discriminate|]. intros (d & E & _). discriminate.
Qed.

(** Effect of a booking on all columns. *)
Definition factor_op (rem : bool) := if rem then remove_factor_contrib else include_factor_contrib.
Lemma factor_op_effect rem n d p cat d' : frame_rows n d -> List.length p = n -> factor_op rem d p cat = Some d' ->
  (forall c, cat = Some c -> c <> "factors"%string) ->
  frame_rows n d' /\ (forall j, entry d' "factors" j = entry d "factors" j + sgn rem (nth j p 0)) /\
  (forall c, cat = Some c -> (rem = true -> d c <> None) ->
     d' c <> None /\ forall j, entry d' c j = entry d c j + sgn rem (nth j p 0)) /\
  (forall x, x <> "factors"%string -> cat <> Some x -> d' x = d x).
Proof.
  intros Hd Hp H Hc.
  assert (H' : exists d1, col_op rem d "factors" p = Some d1 /\
    match cat with None => Some d1 | Some c => match d1 c with Some _ => col_op rem d1 c p | None => Some (set_col d1 c p) end end = Some d').
  { destruct rem; unfold factor_op, remove_factor_contrib, include_factor_contrib in H; cbn [col_op].
    - destruct (frame_sub d "factors" p) as [d1|]; [|discriminate]. exists d1. split; auto.
    - destruct (frame_add d "factors" p) as [d1|]; [|discriminate]. exists d1. split; auto. }
  destruct H' as (d1 & H1 & H2). destruct (col_op_effect rem n d "factors" p d1 Hd Hp H1) as (F1 & F2 & F3 & F4 & F5).
  destruct cat as [c|].
  - pose proof (Hc c eq_refl) as Hne. rewrite (F5 c Hne) in H2.
    assert (Ec1 : forall j, entry d1 c j = entry d c j) by (intro j; unfold entry; rewrite (F5 c Hne); auto).
    destruct (d c) as [v|] eqn:Ec.
    + destruct (col_op_effect rem n d1 c p d' F1 Hp H2) as (G1 & G2 & G3 & G4 & G5).
      split; [auto|]. split; [intro j; rewrite <- F4; unfold entry; rewrite G5; auto|]. split.
      * intros c' E _. injection E as <-. split; [auto|]. intro j. rewrite G4, Ec1. reflexivity.
      * intros x Hx Hn. rewrite G5 by congruence. auto.
    + injection H2 as <-. split; [apply set_col_rows; auto|].
      split; [intro j; rewrite <- F4; unfold entry; rewrite set_col_other; auto|]. split.
      * intros c' E Hr. injection E as <-. split; [rewrite set_col_same; congruence|]. intro j.
        destruct rem; [exfalso; apply Hr; auto|]. unfold entry. rewrite set_col_same, Ec. cbn [sgn]. lra.
      * intros x Hx Hn. rewrite set_col_other by congruence. auto.
  - injection H2 as <-. split; [auto|]. split; [auto|]. split; [intros; discriminate|]. auto.
Qed.

Lemma book_effect cats n d b d' : frame_rows n d -> List.length (b_values b) = n -> book cats d b = Some d' ->
  (forall c, category_of cats (b_group b) c -> ~ reserved c) ->
  frame_rows n d' /\
  (b_ext b = false -> (forall j, entry d' "factors" j = entry d "factors" j + signed b j) /\ d' "exponents"%string = d "exponents"%string) /\
  (b_ext b = true -> (forall j, entry d' "exponents" j = entry d "exponents" j + signed b j) /\ d' "factors"%string = d "factors"%string) /\
  d' "prior_exponents"%string = d "prior_exponents"%string /\ d' "base"%string = d "base"%string /\
  (forall c, b_ext b = false -> category_of cats (b_group b) c -> (b_remove b = true -> d c <> None) ->
     d' c <> None /\ forall j, entry d' c j = entry d c j + signed b j) /\
  (forall c, ~ reserved c -> (b_ext b = true \/ ~ category_of cats (b_group b) c) -> d' c = d c).
Proof.
  intros Hd Hl H Hr. unfold book in H.
  assert (H' : (if b_ext b then col_op (b_remove b) d "exponents" (b_values b)
      else match get_influence_category (b_group b) cats with Some c => factor_op (b_remove b) d (b_values b) c | None => None end) = Some d').
  { destruct (b_remove b); exact H. }
  clear H. rename H' into H.
  assert (Es : forall j, signed b j = sgn (b_remove b) (nth j (b_values b) 0)) by (intro j; unfold signed, sgn; destruct (b_remove b); auto).
  destruct (b_ext b) eqn:Ee.
  - destruct (col_op_effect _ n d _ _ d' Hd Hl H) as (F1 & F2 & F3 & F4 & F5).
    split; [auto|]. split; [discriminate|].
    split; [intros _; split; [intro j; rewrite F4, Es; auto|apply F5; discriminate]|].
    split; [apply F5; discriminate|]. split; [apply F5; discriminate|].
    split; [discriminate|]. intros c Hc _. apply F5. intros ->. apply Hc. unfold reserved. cbn. auto.
  - destruct (get_influence_category (b_group b) cats) as [cat|] eqn:Ec; [|discriminate].
    assert (Hcat : forall c, cat = Some c -> ~ reserved c).
    { intros c ->. apply Hr. apply category_spec. auto. }
    destruct (factor_op_effect _ n d _ cat d' Hd Hl H) as (F1 & F2 & F3 & F4).
    { intros c E ->. apply (Hcat _ E). unfold reserved; cbn; auto. }
    assert (Hx : forall x, reserved x -> x <> "factors"%string -> d' x = d x).
    { intros x Hx Hn. apply F4; auto. intros ->. apply (Hcat x eq_refl); auto. }
    split; [auto|]. split.
    { intros _. split; [intro j; rewrite F2, Es; auto|]. apply Hx; [unfold reserved; cbn; auto|discriminate]. }
    split; [discriminate|].
    split; [apply Hx; [unfold reserved; cbn; auto|discriminate]|].
    split; [apply Hx; [unfold reserved; cbn; auto|discriminate]|].
    split.
    + intros c _ Hc Hrm. apply category_spec in Hc. rewrite Ec in Hc. injection Hc as ->.
      destruct (F3 c eq_refl Hrm) as [A B]. split; [exact A|]. intro j. rewrite B, Es. reflexivity.
    + intros c Hc [|Hn]; [discriminate|]. apply F4.
      * intros ->. apply Hc. unfold reserved; cbn; auto.
      * intros ->. apply Hn. apply category_spec. auto.
Qed.

(** Any sequence of operations. *)
Lemma bookings_sum cats n : forall l d d', frame_rows n d -> (forall b, In b l -> List.length (b_values b) = n) ->
  bookings cats d l = Some d' -> (forall b c, In b l -> category_of cats (b_group b) c -> ~ reserved c) ->
  frame_rows n d' /\
  (forall j, entry d' "factors" j = entry d "factors" j + booked_sum (fun b => negb (b_ext b)) l j) /\
  (forall j, entry d' "exponents" j = entry d "exponents" j + booked_sum b_ext l j) /\
  d' "prior_exponents"%string = d "prior_exponents"%string /\ d' "base"%string = d "base"%string.
Proof.
  induction l as [|b l IH]; intros d d' Hd Hl H Hr; cbn [bookings] in H.
  - injection H as <-. split; auto. unfold booked_sum. cbn. split; [intro; lra|]. split; [intro; lra|auto].
  - destruct (book cats d b) as [d1|] eqn:E; [|discriminate].
    destruct (book_effect cats n d b d1 Hd (Hl b (or_introl eq_refl)) E (fun c => Hr b c (or_introl eq_refl))) as (F1 & F2 & F3 & F4 & F5 & _).
    destruct (IH d1 d' F1 (fun x Hx => Hl x (or_intror Hx)) H (fun x c Hx => Hr x c (or_intror Hx))) as (G1 & G2 & G3 & G4 & G5).
    split; [auto|]. unfold booked_sum in *. cbn [map sumR].
    destruct (b_ext b) eqn:Ee.
    + destruct (F3 eq_refl) as [A B]. cbn [negb].
      split; [intro j; rewrite G2; unfold entry; rewrite B; lra|]. split; [intro j; rewrite G3, A; lra|]. split; congruence.
    + destruct (F2 eq_refl) as [A B]. cbn [negb].
      split; [intro j; rewrite G2, A; lra|]. split; [intro j; rewrite G3; unfold entry; rewrite B; lra|]. split; congruence.
Qed.

(** A category column. *)
Lemma bookings_category cats n c sel : ~ reserved c -> forall l d d', frame_rows n d ->
  (forall b, In b l -> List.length (b_values b) = n) ->
  bookings cats d l = Some d' -> (forall b k, In b l -> category_of cats (b_group b) k -> ~ reserved k) ->
  (forall b, In b l -> (sel b = true <-> b_ext b = false /\ category_of cats (b_group b) c)) ->
  (forall l1 b l2, l = l1 ++ b :: l2 -> sel b = true -> b_remove b = true ->
     d c <> None \/ exists b', In b' l1 /\ sel b' = true) ->
  forall j, entry d' c j = entry d c j + booked_sum sel l j.
Proof.
  intros Hc. induction l as [|b l IH]; intros d d' Hd Hl H Hr Hs Hf j; cbn [bookings] in H.
  - injection H as <-. unfold booked_sum. cbn. lra.
  - destruct (book cats d b) as [d1|] eqn:E; [|discriminate].
    destruct (book_effect cats n d b d1 Hd (Hl b (or_introl eq_refl)) E (fun k => Hr b k (or_introl eq_refl))) as (F1 & _ & _ & _ & _ & F6 & F7).
    assert (Step : (sel b = true -> d1 c <> None) /\ (sel b = false -> d1 c = d c) /\
       forall i, entry d1 c i = entry d c i + (if sel b then signed b i else 0)).
    { destruct (sel b) eqn:Eb.
      - destruct (proj1 (Hs b (or_introl eq_refl)) Eb) as [Be Bc].
        assert (Hrm : b_remove b = true -> d c <> None).
        { intro Hb. destruct (Hf [] b l eq_refl Eb Hb) as [|(b' & [] & _)]; auto. }
        destruct (F6 c Be Bc Hrm) as [A B]. split; [auto|]. split; [discriminate|auto].
      - assert (Q : d1 c = d c).
        { apply F7; auto. destruct (b_ext b) eqn:Ee; auto. right. intro K.
          assert (sel b = true) by (apply (Hs b (or_introl eq_refl)); auto). congruence. }
        split; [discriminate|]. split; [auto|]. intro i. unfold entry. rewrite Q. lra. }
    destruct Step as (St1 & St2 & St3).
    rewrite (IH d1 d' F1 (fun x Hx => Hl x (or_intror Hx)) H (fun x k Hx => Hr x k (or_intror Hx)) (fun x Hx => Hs x (or_intror Hx))).
    + rewrite St3. unfold booked_sum. cbn [map sumR]. lra.
    + intros l1 b0 l2 El Hb0 Hrm. subst l.
      destruct (Hf (b :: l1) b0 l2 eq_refl Hb0 Hrm) as [Hn|(b' & [<-|Hb'] & Hsel)].
      * left. destruct (sel b) eqn:Eb; [auto|rewrite St2; auto].
      * left. auto.
      * right. eauto.
Qed.

(** The sum over all categories. *)
Lemma sumR_swap {A B} (g : A -> B -> R) (l : list A) (m : list B) :
  sumR (map (fun x => sumR (map (fun y => g x y) m)) l) = sumR (map (fun y => sumR (map (fun x => g x y) l)) m).
Proof.
  induction l as [|x l IH]; cbn [map sumR]; [rewrite sumR_zero; auto|].
  rewrite IH. symmetry. apply (sumR_plus (fun y => g x y) (fun y => sumR (map (fun x0 => g x0 y) l))).
Qed.

Definition has_category (cats : option (cat_key -> option string)) (c : string) (b : booking) : bool :=
  negb (b_ext b) && match get_influence_category (b_group b) cats with Some (Some k) => String.eqb k c | _ => false end.
Lemma has_category_spec cats c b : has_category cats c b = true <-> b_ext b = false /\ category_of cats (b_group b) c.
Proof.
  unfold has_category. rewrite andb_true_iff, negb_true_iff, <- category_spec.
  destruct (get_influence_category (b_group b) cats) as [[k|]|].
  - split; intros [A B]; split; auto; [apply String.eqb_eq in B; subst; auto|injection B as ->; apply String.eqb_refl].
  - split; intros [A B]; discriminate.
  - split; intros [A B]; discriminate.
Qed.

Lemma sum_one_category (k : string) x cs : NoDup cs -> In k cs -> sumR (map (fun c => if String.eqb k c then x else 0) cs) = x.
Proof.
  induction cs as [|c cs IH]; intros N H; [contradiction|]. inversion N as [|? ? N1 N2]; subst. cbn [map sumR].
  destruct (String.eqb_spec k c) as [->|Hne].
  - rewrite (sumR_ext _ (fun _ => 0)); [rewrite sumR_zero; lra|]. intros c' Hc'. destruct (String.eqb_spec c c'); [subst; contradiction|auto].
  - destruct H as [->|H]; [congruence|]. rewrite IH by auto. lra.
Qed.

Lemma category_total cats n cs : forall l d d', frame_rows n d ->
  (forall b, In b l -> List.length (b_values b) = n) ->
  bookings cats d l = Some d' -> (forall b k, In b l -> category_of cats (b_group b) k -> ~ reserved k) ->
  cats <> None -> NoDup cs ->
  (forall c, In c cs -> ~ reserved c /\ d c = None) ->
  (forall b c, In b l -> b_ext b = false -> category_of cats (b_group b) c -> In c cs) ->
  (forall b, In b l -> b_remove b = false) ->
  forall j, entry d' "factors" j - entry d "factors" j = sumR (map (fun c => entry d' c j) cs).
Proof.
  intros l d d' Hd Hl H Hr Hcats Hnd Hcs Hin Hrem j.
  destruct (bookings_sum cats n l d d' Hd Hl H Hr) as (_ & F & _). rewrite F.
  rewrite (sumR_ext _ (fun c => booked_sum (has_category cats c) l j)).
  2:{ intros c Hc. destruct (Hcs c Hc) as [C1 C2].
      rewrite (bookings_category cats n c (has_category cats c) C1 l d d' Hd Hl H Hr).
      - unfold entry. rewrite C2. lra.
      - intros b _. apply has_category_spec.
      - intros l1 b l2 E _ Hb. rewrite (Hrem b) in Hb; [discriminate|]. subst l. apply in_or_app. right. left. auto. }
  unfold booked_sum. rewrite sumR_swap.
  assert (G : sumR (map (fun b => if negb (b_ext b) then signed b j else 0) l) =
              sumR (map (fun b => sumR (map (fun c => if has_category cats c b then signed b j else 0) cs)) l)); [|lra].
  clear Hr Hl F Hcs Hd. revert d H. induction l as [|b l IH]; intros d H; [reflexivity|]. cbn [map sumR].
  cbn [bookings] in H. destruct (book cats d b) as [d1|] eqn:E; [|discriminate].
  f_equal.
  - unfold has_category. destruct (b_ext b) eqn:Ee; cbn [negb andb]; [rewrite sumR_zero; auto|].
    unfold book, remove_predictions, update_predictions in E. rewrite (Hrem b (or_introl eq_refl)), Ee in E.
    destruct (get_influence_category (b_group b) cats) as [[k|]|] eqn:Eg; [| |discriminate].
    + symmetry. apply sum_one_category; auto. apply (Hin b k (or_introl eq_refl) Ee). apply category_spec. auto.
    + exfalso. unfold get_influence_category in Eg. destruct cats as [g|]; [|congruence].
      destruct (g (KTuple (b_group b))); [discriminate|]. destruct (b_group b) as [|s [|? ?]]; try discriminate. destruct (g (KName s)); discriminate.
  - apply (IH (fun x c Hx => Hin x c (or_intror Hx)) (fun x Hx => Hrem x (or_intror Hx)) d1 H).
Qed.

(** Including and removing the same contribution. *)
Lemma list_ext_n (a b : list R) : List.length a = List.length b -> (forall j, (j < List.length a)%nat -> nth j a 0 = nth j b 0) -> a = b.
Proof. intros L H. apply (nth_ext a b 0 0); auto. Qed.
Lemma col_ext n d d' c : frame_rows n d -> frame_rows n d' -> (d c = None <-> d' c = None) ->
  (forall j, entry d' c j = entry d c j) -> d' c = d c.
Proof.
  intros Hd Hd' Hi He. unfold entry in He. destruct (d c) as [v|] eqn:E; destruct (d' c) as [v'|] eqn:E'; auto.
  - f_equal. apply list_ext_n; [rewrite (Hd _ _ E), (Hd' _ _ E'); auto|auto].
  - exfalso. destruct Hi as [_ Hi]. specialize (Hi eq_refl). discriminate.
  - exfalso. destruct Hi as [Hi _]. specialize (Hi eq_refl). discriminate.
Qed.

Lemma book_keeps cats n d b d' c : frame_rows n d -> List.length (b_values b) = n -> book cats d b = Some d' ->
  (forall c, category_of cats (b_group b) c -> ~ reserved c) -> reserved c -> (d c = None <-> d' c = None).
Proof.
  intros Hd Hl H Hr Hc. unfold book in H.
  assert (K : forall rem d1 d2 x p, col_op rem d1 x p = Some d2 -> forall y, d1 y = None <-> d2 y = None).
  { intros rem d1 d2 x p K y. destruct rem; unfold col_op, frame_add, frame_sub in K; destruct (d1 x) eqn:Ex; try discriminate; injection K as <-;
    unfold set_col; destruct (String.eqb_spec y x); subst; try tauto; rewrite Ex; split; discriminate. }
  assert (H' : (if b_ext b then col_op (b_remove b) d "exponents" (b_values b)
      else match get_influence_category (b_group b) cats with Some c => factor_op (b_remove b) d (b_values b) c | None => None end) = Some d').
  { destruct (b_remove b); exact H. }
  clear H. destruct (b_ext b); [eapply K; eauto|].
  destruct (get_influence_category (b_group b) cats) as [cat|] eqn:Ec; [|discriminate].
  assert (H2 : exists d1, col_op (b_remove b) d "factors" (b_values b) = Some d1 /\
    match cat with None => Some d1 | Some c => match d1 c with Some _ => col_op (b_remove b) d1 c (b_values b) | None => Some (set_col d1 c (b_values b)) end end = Some d').
  { destruct (b_remove b); unfold factor_op, remove_factor_contrib, include_factor_contrib in H'; cbn [col_op].
    - destruct (frame_sub d "factors" (b_values b)) as [d1|]; [|discriminate]. exists d1. split; auto.
    - destruct (frame_add d "factors" (b_values b)) as [d1|]; [|discriminate]. exists d1. split; auto. }
  destruct H2 as (d1 & A & B). rewrite (K _ _ _ _ _ A c). destruct cat as [k|]; [|injection B as <-; tauto].
  assert (Hk : k <> c). { intros ->. apply (Hr c); auto. apply category_spec; auto. }
  destruct (d1 k); [eapply K; eauto|]. injection B as <-. rewrite set_col_other by congruence. tauto.
Qed.

Lemma include_remove cats n d b d' : frame_rows n d -> List.length (b_values b) = n ->
  (forall c, category_of cats (b_group b) c -> ~ reserved c) -> b_remove b = false ->
  bookings cats d [b; {| b_remove := true; b_values := b_values b; b_group := b_group b; b_ext := b_ext b |}] = Some d' ->
  (forall c, reserved c -> d' c = d c) /\ predict_link_factors d' = predict_link_factors d /\
  predict_link_price d' = predict_link_price d /\
  (forall c j, ~ reserved c -> entry d' c j = entry d c j).
Proof.
  intros Hd Hl Hr Hb H. set (b' := {| b_remove := true; b_values := b_values b; b_group := b_group b; b_ext := b_ext b |}) in *.
  assert (Hin : forall x, In x [b; b'] -> List.length (b_values x) = n) by (intros x [<-|[<-|[]]]; auto).
  assert (Hrs : forall x c, In x [b; b'] -> category_of cats (b_group x) c -> ~ reserved c) by (intros x c [<-|[<-|[]]]; apply Hr).
  destruct (bookings_sum cats n [b; b'] d d' Hd Hin H Hrs) as (F1 & F2 & F3 & F4 & F5).
  assert (Z : forall sel j, sel b' = sel b -> booked_sum sel [b; b'] j = 0).
  { intros sel j E. unfold booked_sum. cbn [map sumR]. rewrite E. destruct (sel b); [|lra]. unfold signed. rewrite Hb. cbn. lra. }
  assert (Kp : forall c, reserved c -> (d c = None <-> d' c = None)).
  { intros c Hc. cbn [bookings] in H. destruct (book cats d b) as [d1|] eqn:E1; [|discriminate].
    destruct (book cats d1 b') as [d2|] eqn:E2; [|discriminate]. injection H as <-.
    destruct (book_effect cats n d b d1 Hd Hl E1 Hr) as (G1 & _).
    rewrite (book_keeps cats n d b d1 c Hd Hl E1 Hr Hc). apply (book_keeps cats n d1 b' d2 c G1 Hl E2 Hr Hc). }
  assert (Ef : d' "factors"%string = d "factors"%string).
  { apply (col_ext n); auto; [apply Kp; unfold reserved; cbn; auto|]. intro j. rewrite F2, Z by reflexivity. lra. }
  assert (Ee : d' "exponents"%string = d "exponents"%string).
  { apply (col_ext n); auto; [apply Kp; unfold reserved; cbn; auto|]. intro j. rewrite F3, Z by reflexivity. lra. }
  split; [intros c [<-|[<-|[<-|[<-|[]]]]]; auto|].
  split; [exact Ef|]. split; [unfold predict_link_price; rewrite Ef, Ee, F4, F5; reflexivity|].
  intros c j Hc. rewrite (bookings_category cats n c (has_category cats c) Hc [b; b'] d d' Hd Hin H Hrs).
  - rewrite Z by reflexivity. lra.
  - intros x _. apply has_category_spec.
  - intros [|x [|y l1]] z l2 E Hz Hrm; injection E as <- E.
    + congruence.
    + right. exists b. split; [left; auto|]. rewrite <- E in Hz. exact Hz.
    + destruct l1; discriminate.
Qed.

(** Link prediction of the price model. *)
Lemma price_link cats n l d d' f pe e b : frame_rows n d -> (forall x, In x l -> List.length (b_values x) = n) ->
  bookings cats d l = Some d' -> (forall x c, In x l -> category_of cats (b_group x) c -> ~ reserved c) ->
  d "factors"%string = Some f -> d "prior_exponents"%string = Some pe -> d "exponents"%string = Some e -> d "base"%string = Some b ->
  exists link, predict_link_price d' = Some link /\ List.length link = n /\
  forall j, (j < n)%nat -> nth j link 0 =
    nth j f 0 + booked_sum (fun x => negb (b_ext x)) l j + nth j pe 0 * exp (nth j e 0 + booked_sum b_ext l j) * nth j b 0.
Proof.
  intros Hd Hl H Hr Ef Ep Ee Eb.
  destruct (bookings_sum cats n l d d' Hd Hl H Hr) as (F1 & F2 & F3 & F4 & F5).
  assert (Kp : forall l d d', frame_rows n d -> (forall x, In x l -> List.length (b_values x) = n) -> bookings cats d l = Some d' ->
      (forall x c, In x l -> category_of cats (b_group x) c -> ~ reserved c) -> forall c, reserved c -> (d c = None <-> d' c = None)).
  { clear. induction l as [|x l IH]; intros d d' Hd Hl H Hr c Hc; cbn [bookings] in H; [injection H as <-; tauto|].
    destruct (book cats d x) as [d1|] eqn:E; [|discriminate].
    destruct (book_effect cats n d x d1 Hd (Hl x (or_introl eq_refl)) E (fun k => Hr x k (or_introl eq_refl))) as (G1 & _).
    rewrite (book_keeps cats n d x d1 c Hd (Hl x (or_introl eq_refl)) E (fun k => Hr x k (or_introl eq_refl)) Hc).
    apply (IH d1 d' G1 (fun y Hy => Hl y (or_intror Hy)) H (fun y k Hy => Hr y k (or_intror Hy)) c Hc). }
  assert (exists f', d' "factors"%string = Some f') as (f' & Ef').
  { destruct (d' "factors"%string) eqn:X; eauto. apply (Kp l d d' Hd Hl H Hr) in X; [congruence|unfold reserved; cbn; auto]. }
  assert (exists e', d' "exponents"%string = Some e') as (e' & Ee').
  { destruct (d' "exponents"%string) eqn:X; eauto. apply (Kp l d d' Hd Hl H Hr) in X; [congruence|unfold reserved; cbn; auto]. }
  pose proof (Hd _ _ Ep) as Lp. pose proof (Hd _ _ Eb) as Lb. pose proof (F1 _ _ Ef') as Lf. pose proof (F1 _ _ Ee') as Le.
  unfold predict_link_price. rewrite Ef', F4, Ep, Ee', F5, Eb. eexists. split; [reflexivity|].
  assert (L1 : List.length (map2 (fun p x => p * exp x) pe e') = n) by (rewrite map2_length; lia).
  assert (L2 : List.length (map2 Rmult (map2 (fun p x => p * exp x) pe e') b) = n) by (rewrite map2_length; lia).
  split; [unfold vadd; rewrite map2_length; lia|].
  intros j Hj. rewrite nth_vadd by lia. rewrite (nth_map2 Rmult 0) by lia. rewrite (nth_map2 (fun p x => p * exp x) 0) by lia.
  pose proof (F2 j) as A. pose proof (F3 j) as B. unfold entry in A, B. rewrite Ef', Ef in A. rewrite Ee', Ee in B. rewrite A, B. lra.
Qed.
