(** Facts about the regression types. *)
From Coq Require Import ZArith QArith Qround List Bool Reals Lia Lra.
From Verif.Model Require Import Num LexBins Train SmootherChoice MetaSmoothers.
From Verif.Spec Require Import LexSpec MetaSpec.
From Verif.Proofs Require Import NumFacts TrainFacts LexFacts PredictFacts MetaFacts.
Import ListNotations.
Local Open Scope Z_scope.

Lemma fmax_ge a b : (a <= fmax a b)%Q /\ (b <= fmax a b)%Q.
Proof.
  unfold fmax. destruct (Qle_bool a b) eqn:E.
  - apply Qle_bool_iff in E. split; [exact E|apply Qle_refl].
  - split; [apply Qle_refl|]. apply not_true_iff_false in E. rewrite Qle_bool_iff in E. apply Qnot_le_lt in E. now apply Qlt_le_weak.
Qed.
Lemma fmax_le a b c : (a <= c)%Q -> (b <= c)%Q -> (fmax a b <= c)%Q.
Proof. unfold fmax. now destruct (Qle_bool a b). Qed.

Lemma fold_fmax_ge l : forall a, (a <= fold_left fmax l a)%Q /\ forall x, In x l -> (x <= fold_left fmax l a)%Q.
Proof.
  induction l as [|y l IH]; intro a; cbn; [split; [apply Qle_refl|intros ? []]|].
  destruct (IH (fmax a y)) as [H1 H2]. destruct (fmax_ge a y) as [G1 G2].
  split; [eapply Qle_trans; eauto|]. intros x [<-|I]; [eapply Qle_trans; eauto|auto].
Qed.
Lemma fold_fmax_le l c : forall a, (a <= c)%Q -> (forall x, In x l -> (x <= c)%Q) -> (fold_left fmax l a <= c)%Q.
Proof.
  induction l as [|y l IH]; intros a Ha Hl; cbn; [exact Ha|].
  apply IH; [apply fmax_le; auto; apply Hl; now left|]. intros x I. apply Hl. now right.
Qed.

Lemma in_arange n t : shape n -> (In t (arange_multi n) <-> valid_tuple n t).
Proof.
  intro Hs. rewrite arange_multi_rows by exact Hs. split.
  - intro I. apply in_map_iff in I. destruct I as (i & <- & _). now apply digits_valid.
  - intro V. pose proof (number_range n t V) as Rg.
    apply in_map_iff. exists (Z.to_nat (number n t)). split; [|apply in_seq; lia].
    rewrite Z2Nat.id by lia. apply (number_injective n); [now apply digits_valid|exact V|]. now apply number_digits.
Qed.

Lemma forall2_in_l {A B} (P : A -> B -> Prop) a b x : Forall2 P a b -> In x a -> exists y, In y b /\ P x y.
Proof. induction 1 as [|u v a b Huv H IH]; intros []; subst; [exists v; split; [now left|auto]|]. destruct (IH H0) as (y & I & Py). exists y. split; [now right|auto]. Qed.
Lemma forall2_in_r {A B} (P : A -> B -> Prop) a b y : Forall2 P a b -> In y b -> exists x, In x a /\ P x y.
Proof. induction 1 as [|u v a b Huv H IH]; intros []; subst; [exists u; split; [now left|auto]|]. destruct (IH H0) as (x & I & Py). exists x. split; [now right|auto]. Qed.

Lemma holds_nth row t d : holds_tuple row t -> (d < length t)%nat -> fin_of (nth d row NaN) == inject_Z (nth d t 0).
Proof.
  intro H. revert d. induction H as [|x k row t (q & E & Q) H IH]; intros [|d] L; cbn in *; try lia.
  - subst x. exact Q.
  - apply IH. lia.
Qed.

Lemma valid_nth n t d : valid_tuple n t -> (d < length n)%nat -> 0 <= nth d t 0 < nth d n 0.
Proof.
  intro H. revert d. induction H as [|k i n t Hk H IH]; intros [|d] L; cbn in *; try lia. apply IH. lia.
Qed.

Lemma column_max_bins n X d : shape n -> bins_of n X -> (d < length n)%nat ->
  column_max X d == inject_Z (nth d n 0 - 1).
Proof.
  intros Hs B L. unfold column_max.
  assert (Le : forall x, In x (map (fun r => fin_of (nth d (r_x r) NaN)) X) -> (x <= inject_Z (nth d n 0 - 1)%Z)%Q).
  { intros x I. apply in_map_iff in I. destruct I as (r & <- & I).
    destruct (forall2_in_l _ _ _ r B I) as (t & It & Ht). apply in_arange in It; [|exact Hs].
    rewrite (holds_nth _ _ d Ht) by (rewrite (valid_length n t It); exact L).
    rewrite <- Zle_Qle. pose proof (valid_nth n t d It L). lia. }
  assert (Ge : exists x, In x (map (fun r => fin_of (nth d (r_x r) NaN)) X) /\ x == inject_Z (nth d n 0 - 1)).
  { pose proof (last_valid n Hs) as V. pose proof (proj2 (in_arange n _ Hs) V) as I.
    destruct (forall2_in_r _ _ _ _ B I) as (r & Ir & Hr). exists (fin_of (nth d (r_x r) NaN)).
    split; [now apply (in_map (fun r => fin_of (nth d (r_x r) NaN)))|].
    rewrite (holds_nth _ _ d Hr) by (now rewrite map_length).
    rewrite (nth_indep _ 0 (Z.pred 0)) by (now rewrite map_length). rewrite map_nth.
    rewrite Z.sub_1_r. reflexivity. }
  destruct Ge as (x & Ix & Ex). destruct (map (fun r => fin_of (nth d (r_x r) NaN)) X) as [|a l]; [destruct Ix|].
  apply Qle_antisym.
  - apply fold_fmax_le; [apply Le; now left|]. intros z I. apply Le. now right.
  - rewrite <- Ex. destruct (fold_fmax_ge l a) as [H1 H2]. destruct Ix as [<-|I]; auto.
Qed.

Lemma n_bins_of_bins n X : shape n -> bins_of n X -> n_bins_of (length n) X = n.
Proof.
  intros Hs B. unfold n_bins_of. apply nth_ext with (d := 0) (d' := 0); rewrite map_length, seq_length; [reflexivity|].
  intros d L. rewrite (nth_indep _ 0 (np_round (Fin (column_max X 0%nat)) + 1)) by (now rewrite map_length, seq_length).
  rewrite (map_nth (fun d => np_round (Fin (column_max X d)) + 1)), seq_nth by exact L. cbn [Nat.add].
  rewrite (np_round_int _ (nth d n 0 - 1)); [lia|]. eexists. split; [reflexivity|]. now apply column_max_bins.
Qed.

(** ** The range of an interpolating feature *)
Lemma outside_finite n row : length row = length n -> finite_row row ->
  (outside_bins row n = false <-> within_bins n row).
Proof.
  intros L F. unfold outside_bins, within_bins.
  assert (NN : existsb is_nan row = false).
  { apply not_true_iff_false. intro E. apply existsb_exists in E. destruct E as (x & I & E). destruct (F x I) as (q & ->). discriminate. }
  rewrite NN. cbn [negb andb]. clear NN. revert n L. induction row as [|x row IH]; intros [|k n] L; try discriminate.
  - cbn. split; auto.
  - cbn [combine existsb fst snd]. destruct (F x (or_introl eq_refl)) as (q & ->).
    assert (IHn : existsb (fun x => lt_fnum x 0) row || existsb (fun p => gt_fnum (fst p) (inject_Z (snd p) - (1 # 2))) (combine row n) = false <->
                  Forall2 (fun x k => exists q, x = Fin q /\ (0 <= q <= inject_Z k - (1 # 2))%Q) row n).
    { apply IH; [intros y I; apply F; now right|now injection L]. }
    cbn [lt_fnum gt_fnum]. split.
    + intro E. apply orb_false_iff in E. destruct E as [E1 E2]. apply orb_false_iff in E1, E2.
      destruct E1 as [A1 A2], E2 as [B1 B2]. apply negb_false_iff in A1, B1. apply Qle_bool_iff in A1, B1.
      constructor; [exists q; auto|]. apply IHn. now rewrite A2, B2.
    + intro E. inversion E as [|? ? ? ? (q' & E1 & A) B]; subst. injection E1 as <-. destruct A as [A1 A2].
      apply IHn in B. apply orb_false_iff in B. destruct B as [B1 B2]. rewrite B1, B2.
      apply Qle_bool_iff in A1, A2. rewrite A1, A2. reflexivity.
Qed.

Lemma nth_map2 {A B C} (f : A -> B -> C) a b i x y : nth_error a i = Some x -> nth_error b i = Some y ->
  nth_error (map2 f a b) i = Some (f x y).
Proof.
  revert b i. induction a as [|u a IH]; intros [|v b] [|i]; cbn; try discriminate.
  - congruence.
  - apply IH.
Qed.

Lemma cut_interpolating n s X y rows i row v : leaves_rows s -> shape n -> bins_of n X ->
  nth_error rows i = Some row -> nth_error (predict s (fit s X y) rows) i = Some v ->
  length row = length n -> finite_row row ->
  let S := regression_type_smoother (length n) Interpolating s in
  (within_bins n row -> nth_error (predict S (fit S X y) rows) i = Some v) /\
  (~ within_bins n row -> nth_error (predict S (fit S X y) rows) i = Some None).
Proof.
  intros Pu Hs B Er Ev L F. cbv zeta. cbn [regression_type_smoother predict fit fst snd apply_cut]. cbv zeta. rewrite Pu.
  rewrite n_bins_of_bins by assumption.
  assert (N : nth_error (cut_at (map (fun row => outside_bins row n) rows) (predict s (fit s X y) rows)) i =
              Some (if outside_bins row n then None else v)).
  { unfold cut_at. apply (nth_map2 (fun (b : bool) (x : option R) => if b then None else x)); [|exact Ev]. apply (map_nth_error (fun row => outside_bins row n) i rows Er). }
  cbv zeta. rewrite N. pose proof (outside_finite n row L F) as O. split; intro W.
  - now rewrite (proj2 O W).
  - destruct (outside_bins row n); [reflexivity|]. exfalso. apply W. now apply O.
Qed.

Lemma cut_extrapolating ndim s X y rows :
  let S := regression_type_smoother ndim Extrapolating s in
  predict S (fit S X y) rows = predict s (fit s X y) rows.
Proof. reflexivity. Qed.

(** ** Discontinuous features *)
Lemma bins_length n X : shape n -> bins_of n X -> Z.of_nat (length X) = size n.
Proof. intros Hs B. rewrite (Forall2_len _ _ _ B). now apply arange_multi_numbers. Qed.

Lemma cut_discontinuous n s X y rows i row v : leaves_rows s -> shape n -> n <> [] -> bins_of n X ->
  (forall r, In r rows -> length r = length n) ->
  nth_error rows i = Some row -> nth_error (predict s (fit s X y) rows) i = Some v ->
  let S := regression_type_smoother (length n) Discontinuous s in
  (forall t b, holds_tuple row t -> valid_tuple n t -> nth_error X (Z.to_nat (number n t)) = Some b ->
     nth_error (predict S (fit S X y) rows) i = Some (if Qeq_bool (r_w b) 0 then None else v)) /\
  (forall t, holds_tuple row t -> invalid_row n row -> (length n = 1%nat \/ exists r, In r rows /\ ~ invalid_row n r) ->
     nth_error (predict S (fit S X y) rows) i = Some None) /\
  (missing_entry row -> nth_error (predict S (fit S X y) rows) i = Some None).
Proof.
  intros Pu Hs NE B Lr Er Ev. cbv zeta. cbn [regression_type_smoother predict fit fst snd apply_cut]. cbv zeta. rewrite Pu.
  rewrite n_bins_of_bins by assumption.
  pose proof (bins_length n X Hs B) as LX.
  assert (W : weights_for n (map r_w X)) by (left; rewrite map_length; exact LX).
  assert (LM : (1 <= length n)%nat) by (destruct n; [congruence|cbn; lia]).
  destruct (mask_valid (length n) rows (map r_w X) n Hs W eq_refl LM Lr) as (l & El & Ll & V1 & V2 & V3).
  rewrite El.
  assert (Hb : exists b, nth_error l i = Some b).
  { destruct (nth_error l i) eqn:E; [eauto|]. apply nth_error_None in E.
    assert (i < length rows)%nat by (apply nth_error_Some; congruence). lia. }
  destruct Hb as (b & Eb).
  assert (N : nth_error (cut_at l (predict s (fit s X y) rows)) i = Some (if b then None else v)).
  { unfold cut_at. now apply (nth_map2 (fun (b : bool) (x : option R) => if b then None else x)). }
  rewrite N.
  assert (U : unseen (map r_w X) (size n)).
  { unfold unseen. rewrite (proj2 (nth_error_None _ _)); [exact I|]. rewrite map_length. lia. }
  split; [|split].
  - intros t r Ht Vt Et. specialize (V1 i row t b Er Eb Ht Vt). unfold unseen in V1.
    rewrite nth_error_map, Et in V1. cbn in V1. destruct (Qeq_bool (r_w r) 0) eqn:Q.
    + apply Qeq_bool_iff in Q. now rewrite (proj2 V1 Q).
    + destruct b; [|reflexivity]. exfalso. apply Qeq_bool_neq in Q. apply Q. now apply V1.
  - intros t Ht Iv O. now rewrite (proj2 (V3 i row t b Er Eb Ht Iv O) U).
  - intro M. now rewrite (proj2 (V2 i row b Er Eb M) U).
Qed.
