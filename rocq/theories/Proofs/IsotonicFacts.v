(** The isotonic smoother. *)
From Coq Require Import ZArith NArith QArith Qreals List Bool Reals Lia Lra.
From Verif.Model Require Import Num LexBins Flags Train SmootherChoice MetaSmoothers Isotonic.
From Verif.Spec Require Import LexSpec MetaSpec TrainSpec IsotonicSpec.
From Verif.Proofs Require Import LexFacts TrainFacts TrainExamples TrainHistory MetaFacts CutFacts PoolFacts MonotoneTrain.
Import ListNotations.
Local Open Scope R_scope.

(** ** Reversal *)
Lemma error_app a : forall b c a' b' c', length b = length a -> length c = length a ->
  squared_error (a ++ a') (b ++ b') (c ++ c') = squared_error a b c + squared_error a' b' c'.
Proof.
  induction a as [|x a IH]; intros [|y b] [|z c] a' b' c' L1 L2; try discriminate; cbn; [lra|].
  cbn in L1, L2. rewrite IH by lia. lra.
Qed.
Lemma error_rev a : forall b c, length b = length a -> length c = length a ->
  squared_error (rev a) (rev b) (rev c) = squared_error a b c.
Proof.
  induction a as [|x a IH]; intros [|y b] [|z c] L1 L2; try discriminate; cbn; [lra|]. cbn in L1, L2.
  rewrite error_app by (rewrite !rev_length; lia). rewrite IH by lia. cbn. lra.
Qed.
Lemma rev_follows l : nonincreasing l <-> nondecreasing (rev l).
Proof.
  split; intros H i j Hij.
  - rewrite rev_length in Hij. rewrite !rev_nth by lia. apply H. lia.
  - specialize (H (length l - S j)%nat (length l - S i)%nat). rewrite rev_length in H.
    rewrite !rev_nth in H by lia. replace (length l - S (length l - S j))%nat with j in H by lia.
    replace (length l - S (length l - S i))%nat with i in H by lia. apply H. lia.
Qed.

Lemma best_rev w y v : length w = length y -> best_monotone true (rev w) (rev y) v -> best_monotone false w y (rev v).
Proof.
  intros L (Lv & V & B). rewrite rev_length in Lv. split; [now rewrite rev_length|]. split.
  - apply rev_follows. now rewrite rev_involutive.
  - intros z Lz Z. rewrite <- (error_rev w y (rev v)), <- (error_rev w y z) by (rewrite ?rev_length; congruence).
    rewrite rev_involutive. apply B; [rewrite !rev_length; congruence|]. now apply rev_follows.
Qed.

Lemma isotonic_best b w y : length w = length y -> (forall x, In x w -> 0 < x) ->
  best_monotone b w y (isotonic_values b w y).
Proof.
  intros L P. destruct b; cbn [isotonic_values].
  - now apply pool_best.
  - apply best_rev; [exact L|]. apply pool_best; [now rewrite !rev_length|]. intros x I. apply P. now apply in_rev.
Qed.

Lemma best_unique b w y u v : length w = length y -> (forall x, In x w -> 0 < x) ->
  best_monotone b w y u -> best_monotone b w y v -> u = v.
Proof.
  intros L P U V. destruct b.
  - rewrite (pool_unique w y L P u U). symmetry. now apply pool_unique.
  - assert (X : forall t, best_monotone false w y t -> rev t = pool (rev w) (rev y)).
    { intros t (Lt & T & B). apply pool_unique; [now rewrite !rev_length| |].
      - intros x I. apply P. now apply in_rev.
      - split; [now rewrite !rev_length|]. split; [now apply rev_follows|].
        intros z Lz Z. rewrite rev_length in Lz.
        rewrite <- (rev_involutive z). rewrite !error_rev by (rewrite ?rev_length; congruence).
        apply B; [now rewrite rev_length|]. apply rev_follows. now rewrite rev_involutive. }
    rewrite <- (rev_involutive u), <- (rev_involutive v). f_equal. rewrite (X u U). symmetry. now apply X.
Qed.

(** ** Shifts *)
Lemma error_shift w : forall y z c, length y = length w -> length z = length w ->
  squared_error w (map (fun x => x + c) y) (map (fun x => x + c) z) = squared_error w y z.
Proof.
  induction w as [|a w IH]; intros [|b y] [|d z] c L1 L2; try discriminate; cbn; [reflexivity|].
  cbn in L1, L2. rewrite IH by lia. ring.
Qed.
Lemma map_shift_back (l : list R) c : map (fun x => x + c) (map (fun v => v - c) l) = l.
Proof. rewrite map_map. rewrite <- (map_id l) at 2. apply map_ext. intro. lra. Qed.
Lemma follows_shift b c l : follows b l -> follows b (map (fun x => x + c) l).
Proof.
  destruct b; [apply nondecreasing_shift|]. intro H. apply rev_follows. rewrite <- map_rev.
  apply nondecreasing_shift. now apply rev_follows.
Qed.
Lemma best_shift b w y v c : length w = length y ->
  best_monotone b w (map (fun x => x - c) y) v -> best_monotone b w y (map (fun x => x + c) v).
Proof.
  intros L (Lv & V & B). rewrite map_length in Lv. split; [now rewrite map_length|].
  split; [now apply follows_shift|]. intros z Lz Z.
  rewrite <- (map_shift_back y c). rewrite <- (map_shift_back z c).
  rewrite !error_shift by (rewrite ?map_length; congruence).
  apply B; [now rewrite !map_length|]. apply (follows_shift b (- c)) in Z. exact Z.
Qed.

(** ** Weights *)
Lemma weight_pos s : 0 < isotonic_weight s.
Proof.
  unfold isotonic_weight. destruct (Rltb 0 s) eqn:E.
  - apply Rltb_iff in E. apply Rdiv_lt_0_compat; nra.
  - apply Rdiv_lt_0_compat; [lra|]. assert (0 < 10 ^ 12) by (apply pow_lt; lra). nra.
Qed.
Lemma weight_inverse s : inverse_variance s (isotonic_weight s).
Proof.
  unfold isotonic_weight. split; intro H.
  - rewrite (proj2 (Rltb_iff 0 s) H). f_equal. ring.
  - rewrite (proj2 (Rltb_false 0 s) H). f_equal. ring.
Qed.

(** ** Interpolation *)
Fixpoint ordered_from (x0 : Q) (pts : list (Q * R)) : Prop :=
  match pts with
  | [] => True
  | (x1, _) :: r => (x0 < x1)%Q /\ ordered_from x1 r
  end.

Lemma Q2R_pos a b : (a < b)%Q -> 0 < Q2R (b - a).
Proof. intro H. rewrite Q2R_minus. apply Qlt_Rlt in H. lra. Qed.
Lemma qle_true a b : (a <= b)%Q -> Qle_bool a b = true.
Proof. apply Qle_bool_iff. Qed.
Lemma qle_false a b : (b < a)%Q -> Qle_bool a b = false.
Proof. intro H. destruct (Qle_bool a b) eqn:E; [|reflexivity]. apply Qle_bool_iff in E. exfalso. apply (Qlt_not_le _ _ H E). Qed.

Lemma between_first x0 y0 pts x : ordered_from x0 pts -> (x == x0)%Q -> between x0 y0 pts x = y0.
Proof.
  destruct pts as [|[x1 y1] r]; intros O E; [reflexivity|]. destruct O as [O _]. cbn.
  rewrite qle_true by (rewrite E; now apply Qlt_le_weak).
  replace (Q2R (x - x0)) with 0; [unfold Rdiv; lra|].
  rewrite Q2R_minus, (Qeq_eqR _ _ E). lra.
Qed.

Lemma between_knot pts : forall x0 y0 x1 y1, ordered_from x0 pts -> In (x1, y1) pts -> between x0 y0 pts x1 = y1.
Proof.
  induction pts as [|[a b] pts IH]; intros x0 y0 x1 y1 O I; [destruct I|]. destruct O as [O1 O2]. cbn.
  destruct I as [I|I].
  - injection I as -> ->. rewrite qle_true by apply Qle_refl. pose proof (Q2R_pos _ _ O1). field. lra.
  - assert (X : (a < x1)%Q).
    { clear IH. revert a O1 O2. induction pts as [|[u v] pts IH]; intros a O1 O2; [destruct I|].
      destruct O2 as [O3 O4]. destruct I as [I|I]; [injection I as -> ->; exact O3|].
      eapply Qlt_trans; [exact O3|]. apply IH; auto. eapply Qlt_trans; eassumption. }
    rewrite (qle_false _ _ X). apply IH; assumption.
Qed.

Lemma interpolate_knot x0 y0 r x1 y1 : ordered_from x0 r -> In (x1, y1) ((x0, y0) :: r) ->
  interpolate ((x0, y0) :: r) x1 = Some y1.
Proof.
  intros O I. cbn. f_equal. destruct I as [I|I].
  - injection I as -> ->. now rewrite qle_true by apply Qle_refl.
  - assert (X : (x0 < x1)%Q).
    { revert x0 O I. induction r as [|[u v] r IH]; intros x0 O I; [destruct I|]. destruct O as [O1 O2].
      destruct I as [I|I]; [injection I as -> ->; exact O1|]. eapply Qlt_trans; [exact O1|]. apply IH; assumption. }
    rewrite (qle_false _ _ X). now apply between_knot.
Qed.

Lemma between_bounds pts : forall x0 y0 x lo hi, ordered_from x0 pts -> (x0 <= x)%Q -> lo <= y0 <= hi ->
  (forall p, In p pts -> lo <= snd p <= hi) -> lo <= between x0 y0 pts x <= hi.
Proof.
  induction pts as [|[a b] pts IH]; intros x0 y0 x lo hi O Hx Hy H; [exact Hy|]. destruct O as [O1 O2]. cbn.
  pose proof (H (a, b) (or_introl eq_refl)) as Hb. cbn in Hb.
  destruct (Qle_bool x a) eqn:E.
  - apply Qle_bool_iff in E. pose proof (Q2R_pos _ _ O1) as P. set (t := Q2R (x - x0) / Q2R (a - x0)).
    assert (T : 0 <= t <= 1).
    { unfold t. apply Qle_Rle in Hx, E. rewrite !Q2R_minus in *. split.
      - apply Rmult_le_reg_r with (Q2R a - Q2R x0); [exact P|]. unfold Rdiv. rewrite Rmult_assoc, Rinv_l by lra. lra.
      - apply Rmult_le_reg_r with (Q2R a - Q2R x0); [exact P|]. unfold Rdiv. rewrite Rmult_assoc, Rinv_l by lra. lra. }
    clearbody t. nra.
  - assert (X : (a < x)%Q). { apply Qnot_le_lt. intro C. apply Qle_bool_iff in C. congruence. }
    apply IH; [exact O2|now apply Qlt_le_weak|exact Hb|]. intros p I. apply H. now right.
Qed.

Lemma between_mono pts : forall x0 y0 x x', ordered_from x0 pts -> (x0 <= x)%Q -> (x <= x')%Q ->
  nondecreasing (y0 :: map snd pts) -> between x0 y0 pts x <= between x0 y0 pts x'.
Proof.
  induction pts as [|[a b] pts IH]; intros x0 y0 x x' O Hx Hxx M; [cbn; lra|]. destruct O as [O1 O2]. cbn.
  pose proof (nondecreasing_head _ _ _ M) as Hb. pose proof (nondecreasing_tail _ _ M) as M'.
  pose proof (Q2R_pos _ _ O1) as P.
  destruct (Qle_bool x' a) eqn:E'.
  - apply Qle_bool_iff in E'. rewrite qle_true by (eapply Qle_trans; eassumption).
    assert (Q2R (x - x0) / Q2R (a - x0) <= Q2R (x' - x0) / Q2R (a - x0)).
    { apply Rmult_le_compat_r; [left; now apply Rinv_0_lt_compat|]. rewrite !Q2R_minus. apply Qle_Rle in Hxx. lra. }
    cbn in Hb. nra.
  - assert (X' : (a < x')%Q). { apply Qnot_le_lt. intro C. apply Qle_bool_iff in C. congruence. }
    destruct (Qle_bool x a) eqn:E.
    + apply Qle_bool_iff in E.
      assert (B1 : y0 + (b - y0) * (Q2R (x - x0) / Q2R (a - x0)) <= b).
      { assert (Q2R (x - x0) / Q2R (a - x0) <= 1).
        { apply Rmult_le_reg_r with (Q2R (a - x0)); [exact P|]. unfold Rdiv. rewrite Rmult_assoc, Rinv_l by lra.
          rewrite !Q2R_minus. apply Qle_Rle in E. lra. }
        cbn in Hb. nra. }
      assert (B2 : b <= between a b pts x').
      { replace b with (between a b pts a) at 1 by (apply between_first; [exact O2|reflexivity]).
        apply IH; [exact O2|apply Qle_refl|now apply Qlt_le_weak|exact M']. }
      lra.
    + assert (X : (a < x)%Q). { apply Qnot_le_lt. intro C. apply Qle_bool_iff in C. congruence. }
      apply IH; [exact O2|now apply Qlt_le_weak|exact Hxx|exact M'].
Qed.

Lemma interpolate_mono pts x x' u v : (match pts with [] => True | (x0, _) :: r => ordered_from x0 r end) ->
  (x <= x')%Q -> nondecreasing (map snd pts) ->
  interpolate pts x = Some u -> interpolate pts x' = Some v -> u <= v.
Proof.
  destruct pts as [|[x0 y0] r]; intros O L M E E'; [discriminate|]. cbn in E, E'. injection E as <-. injection E' as <-.
  destruct (Qle_bool x x0) eqn:A.
  - apply Qle_bool_iff in A. destruct (Qle_bool x' x0) eqn:A'; [lra|].
    assert (X : (x0 < x')%Q). { apply Qnot_le_lt. intro C. apply Qle_bool_iff in C. congruence. }
    replace y0 with (between x0 y0 r x0) at 1 by (apply between_first; [exact O|reflexivity]).
    apply between_mono; [exact O|apply Qle_refl|now apply Qlt_le_weak|exact M].
  - assert (X : (x0 < x)%Q). { apply Qnot_le_lt. intro C. apply Qle_bool_iff in C. congruence. }
    rewrite qle_false by (eapply Qlt_le_trans; eassumption).
    apply between_mono; [exact O|now apply Qlt_le_weak|exact L|exact M].
Qed.

Lemma between_neg pts : forall x0 y0 x,
  between x0 (- y0) (map (fun p => (fst p, - snd p)) pts) x = - between x0 y0 pts x.
Proof.
  induction pts as [|[a b] pts IH]; intros x0 y0 x; [reflexivity|]. cbn.
  destruct (Qle_bool x a); [ring|apply IH].
Qed.
Lemma interpolate_neg pts x : interpolate (map (fun p => (fst p, - snd p)) pts) x = option_map Ropp (interpolate pts x).
Proof. destruct pts as [|[a b] r]; [reflexivity|]. cbn. f_equal. destruct (Qle_bool x a); [reflexivity|apply between_neg]. Qed.

Lemma interpolate_anti pts x x' u v : (match pts with [] => True | (x0, _) :: r => ordered_from x0 r end) ->
  (x <= x')%Q -> nonincreasing (map snd pts) ->
  interpolate pts x = Some u -> interpolate pts x' = Some v -> v <= u.
Proof.
  intros O L M E E'. apply Ropp_le_cancel.
  apply (interpolate_mono (map (fun p => (fst p, - snd p)) pts) x x').
  - clear -O. destruct pts as [|[x0 y0] r]; [exact I|]. cbn in *. revert x0 O. induction r as [|[a b] r IH]; intros x0 O; [exact I|].
    destruct O as [O1 O2]. split; [exact O1|]. apply IH. exact O2.
  - exact L.
  - intros i j Hij. rewrite map_length, map_length in Hij. rewrite map_map. cbn.
    assert (G : forall k, nth k (map (fun p : Q * R => - snd p) pts) 0 = - nth k (map snd pts) 0).
    { intro k. replace (map (fun p : Q * R => - snd p) pts) with (map Ropp (map snd pts)) by now rewrite map_map.
      rewrite <- Ropp_0 at 1. apply map_nth. }
    rewrite !G. apply Ropp_le_contravar. apply M. rewrite map_length. lia.
  - rewrite interpolate_neg, E. reflexivity.
  - rewrite interpolate_neg, E'. reflexivity.
Qed.

(** ** The smoother *)
Lemma ordered_combine X : forall x0 (v : list R), length v = length X ->
  (forall r, In r X -> (x0 < abscissa r)%Q) ->
  (forall i j a b, (i < j)%nat -> nth_error X i = Some a -> nth_error X j = Some b -> (abscissa a < abscissa b)%Q) ->
  ordered_from x0 (combine (map abscissa X) v).
Proof.
  induction X as [|r X IH]; intros x0 [|y v] L H S; try discriminate; [exact I|]. cbn. split; [apply H; now left|].
  apply IH; [now injection L| |].
  - intros r' I'. destruct (In_nth_error _ _ I') as (j & E). apply (S 0%nat (Datatypes.S j) r r'); [lia|reflexivity|exact E].
  - intros i j a b Hij Ea Eb. apply (S (Datatypes.S i) (Datatypes.S j) a b); [lia|exact Ea|exact Eb].
Qed.

Lemma ordered_state X (v : list R) : sorted_rows X -> length v = length X ->
  match combine (map abscissa X) v with [] => True | (x0, _) :: r => ordered_from x0 r end.
Proof.
  intros [_ S] L. destruct X as [|r X]; [exact I|]. destruct v as [|y v]; [exact I|]. cbn.
  apply ordered_combine; [now injection L| |].
  - intros r' I'. destruct (In_nth_error _ _ I') as (j & E). apply (S 0%nat (Datatypes.S j) r r'); [lia|reflexivity|exact E].
  - intros i j a b Hij Ea Eb. apply (S (Datatypes.S i) (Datatypes.S j) a b); [lia|exact Ea|exact Eb].
Qed.

Definition inverse_variances (X : list srow) : list R := map (fun r => isotonic_weight (r_u r)) X.
Lemma inverse_variances_pos X x : In x (inverse_variances X) -> 0 < x.
Proof. unfold inverse_variances. intro I. apply in_map_iff in I. destruct I as (r & <- & _). apply weight_pos. Qed.

(** Predictions at the training rows. *)
Lemma isotonic_at_rows X (v : list R) rows : sorted_rows X -> length v = length X ->
  Forall2 (fun row r => exists q, row = [Fin q] /\ q = abscissa r) rows X ->
  map (fun row => match row with Fin q :: _ => interpolate (combine (map abscissa X) v) q | _ => None end) rows = map Some v.
Proof.
  intros S L F. pose proof (ordered_state X v S L) as O.
  assert (G : forall rows' X' v', Forall2 (fun row r => exists q, row = [Fin q] /\ q = abscissa r) rows' X' -> length v' = length X' ->
    (forall p, In p (combine (map abscissa X') v') -> In p (combine (map abscissa X) v)) ->
    map (fun row => match row with Fin q :: _ => interpolate (combine (map abscissa X) v) q | _ => None end) rows' = map Some v').
  { intros rows' X' v' F'. revert v'. induction F' as [|row r rows' X' (q & E1 & E2) F' IH]; intros v' L' Sub.
    - destruct v'; [reflexivity|discriminate].
    - destruct v' as [|y v']; [discriminate|]. cbn [map]. f_equal.
      + rewrite E1, E2. specialize (Sub (abscissa r, y) (or_introl eq_refl)).
        destruct (combine (map abscissa X) v) as [|[x0 y0] t] eqn:Ec; [destruct Sub|].
        now apply interpolate_knot.
      + apply IH; [now injection L'|]. intros p I. apply Sub. now right. }
  apply (G rows X v F L). auto.
Qed.

Definition direction_bool (d : direction) (X : list srow) (y : list R) : bool :=
  direction_of d (map Q2R (map abscissa X)) y.

Lemma direction_kept d X y : keeps_direction d (direction_bool d X y).
Proof. destruct d; cbn; auto. Qed.

Lemma isotonic_fit_best d X y : length X = length y ->
  best_monotone (direction_bool d X y) (inverse_variances X) y
    (isotonic_values (direction_bool d X y) (inverse_variances X) y).
Proof.
  intro L. apply isotonic_best; [unfold inverse_variances; now rewrite map_length|apply inverse_variances_pos].
Qed.

Lemma rows_of_self X : (forall r, In r X -> exists q, hd NaN (r_x r) = Fin q) ->
  Forall2 (fun row r => exists q, row = [Fin q] /\ q = abscissa r) (map (fun r => [hd NaN (r_x r)]) X) X.
Proof.
  induction X as [|r X IH]; intro H; [constructor|]. cbn. constructor.
  - destruct (H r (or_introl eq_refl)) as (q & E). exists q. unfold abscissa. rewrite E. auto.
  - apply IH. intros r' I. apply H. now right.
Qed.

Lemma inverse_forall X : Forall2 inverse_variance (map r_u X) (inverse_variances X).
Proof. unfold inverse_variances. induction X; cbn; constructor; [apply weight_inverse|assumption]. Qed.

Lemma isotonic_training d X y : sorted_rows X -> length X = length y ->
  exists b w v, keeps_direction d b /\ Forall2 inverse_variance (map r_u X) w /\ best_monotone b w y v /\
    predict (isotonic d) (fit (isotonic d) X y) (map (fun r => [hd NaN (r_x r)]) X) = map Some v.
Proof.
  intros S L. exists (direction_bool d X y), (inverse_variances X), (isotonic_values (direction_bool d X y) (inverse_variances X) y).
  pose proof (isotonic_fit_best d X y L) as B. split; [apply direction_kept|]. split; [apply inverse_forall|].
  split; [exact B|]. cbn [predict fit isotonic]. fold (direction_bool d X y). fold (inverse_variances X).
  apply isotonic_at_rows; [exact S|destruct B; congruence|]. apply rows_of_self. apply S.
Qed.

Lemma snd_combine_ge {A B} (a : list A) (b : list B) : length b = length a -> map snd (combine a b) = b.
Proof. intro L. now apply combine_snd'. Qed.

Lemma isotonic_anywhere d X y q q' u v : sorted_rows X -> length X = length y -> (q <= q')%Q ->
  predict (isotonic d) (fit (isotonic d) X y) [[Fin q]; [Fin q']] = [Some u; Some v] ->
  match d with IncreasingOnly => u <= v | DecreasingOnly => v <= u | AutoDirection =>
    (forall r r' a b, (r <= r')%Q -> predict (isotonic d) (fit (isotonic d) X y) [[Fin r]; [Fin r']] = [Some a; Some b] -> a <= b) \/
    (forall r r' a b, (r <= r')%Q -> predict (isotonic d) (fit (isotonic d) X y) [[Fin r]; [Fin r']] = [Some a; Some b] -> b <= a) end.
Proof.
  intros S L. pose proof (isotonic_fit_best d X y L) as (B1 & B2 & _).
  cbn [predict fit isotonic map]. fold (direction_bool d X y). fold (inverse_variances X).
  set (vs := isotonic_values (direction_bool d X y) (inverse_variances X) y) in *.
  assert (Lv : length vs = length X) by congruence.
  pose proof (ordered_state X vs S Lv) as O.
  assert (Sn : map snd (combine (map abscissa X) vs) = vs) by (apply snd_combine_ge; now rewrite map_length).
  assert (G : forall r r' a b, (r <= r')%Q ->
     [interpolate (combine (map abscissa X) vs) r; interpolate (combine (map abscissa X) vs) r'] = [Some a; Some b] ->
     if direction_bool d X y then a <= b else b <= a).
  { intros r r' a b Lr E. injection E as E1 E2. destruct (direction_bool d X y).
    - eapply interpolate_mono; [exact O|exact Lr| |exact E1|exact E2]. rewrite Sn. exact B2.
    - eapply interpolate_anti; [exact O|exact Lr| |exact E1|exact E2]. rewrite Sn. exact B2. }
  intros Lq E. clearbody vs. clear B2. destruct d; unfold direction_bool in G; cbn [direction_of] in G.
  - destruct (check_increasing (map Q2R (map abscissa X)) y); [left|right]; exact G.
  - exact (G _ _ _ _ Lq E).
  - exact (G _ _ _ _ Lq E).
Qed.

(** Predictions stay in the range of the targets, and are constant beyond the rows. *)
Lemma moment_range d lo hi : positive d -> (forall p, In p d -> lo <= snd p <= hi) ->
  lo * weight d <= moment d <= hi * weight d.
Proof.
  induction d as [|p d IH]; intros P H; cbn; [lra|].
  assert (P' : positive d) by (intros q I; apply P; now right).
  destruct (IH P' (fun q I => H q (or_intror I))). pose proof (P p (or_introl eq_refl)).
  destruct (H p (or_introl eq_refl)). split; nra.
Qed.
Lemma blocks_range bs ds lo hi : blocks_of bs ds -> (forall p, In p ds -> lo <= snd p <= hi) ->
  forall x, In x (expand bs) -> lo <= x <= hi.
Proof.
  induction 1 as [|b bs d ds B H IH L]; intros R x I; [destruct I|]. rewrite expand_cons in I.
  apply in_app_or in I. destruct I as [I|I].
  - apply IH; [|exact I]. intros p J. apply R. apply in_or_app. now left.
  - apply repeat_spec in I. subst x. destruct B as [P N C W M Pr].
    pose proof (positive_weight _ P N). assert (Rd : forall p, In p d -> lo <= snd p <= hi).
    { intros p J. apply R. apply in_or_app. now right. }
    pose proof (moment_range d lo hi P Rd). split; nra.
Qed.
Lemma pool_range w y lo hi : length w = length y -> (forall x, In x w -> 0 < x) -> (forall x, In x y -> lo <= x <= hi) ->
  forall x, In x (pool w y) -> lo <= x <= hi.
Proof.
  intros L P R. destruct (pool_is_blocks w y P) as (bs & B & ->). eapply blocks_range; [exact B|].
  intros [a b] I. cbn. apply R. eapply in_combine_r. eassumption.
Qed.
Lemma isotonic_values_range b w y lo hi : length w = length y -> (forall x, In x w -> 0 < x) -> (forall x, In x y -> lo <= x <= hi) ->
  forall x, In x (isotonic_values b w y) -> lo <= x <= hi.
Proof.
  intros L P R x I. destruct b; cbn in I; [eapply pool_range; eassumption|].
  apply in_rev in I. eapply (pool_range (rev w) (rev y)); [now rewrite !rev_length| | |exact I]; intros z J; apply in_rev in J; auto.
Qed.
Lemma isotonic_range d X y q u lo hi : sorted_rows X -> length X = length y -> (forall x, In x y -> lo <= x <= hi) ->
  predict (isotonic d) (fit (isotonic d) X y) [[Fin q]] = [Some u] -> lo <= u <= hi.
Proof.
  intros S L R. cbn [predict fit isotonic map]. fold (direction_bool d X y). fold (inverse_variances X).
  pose proof (isotonic_fit_best d X y L) as (B1 & _ & _).
  assert (Rv : forall x, In x (isotonic_values (direction_bool d X y) (inverse_variances X) y) -> lo <= x <= hi).
  { apply isotonic_values_range; [unfold inverse_variances; now rewrite map_length|apply inverse_variances_pos|exact R]. }
  set (vs := isotonic_values _ _ _) in *. clearbody vs. intro E. injection E as E.
  assert (Lv : length vs = length X) by congruence. pose proof (ordered_state X vs S Lv) as O.
  assert (Rp : forall p, In p (combine (map abscissa X) vs) -> lo <= snd p <= hi).
  { intros [a b] I. cbn. apply Rv. eapply in_combine_r. eassumption. }
  destruct (combine (map abscissa X) vs) as [|[x0 y0] r]; [discriminate|]. cbn in E. injection E as E. subst u.
  pose proof (Rp (x0, y0) (or_introl eq_refl)) as R0. cbn in R0.
  destruct (Qle_bool q x0) eqn:A; [exact R0|].
  apply between_bounds; [exact O| |exact R0|]. 
  - apply Qlt_le_weak, Qnot_le_lt. intro C. apply Qle_bool_iff in C. congruence.
  - intros p I. apply Rp. now right.
Qed.

(** ** Smoothers chosen by the flags *)
Lemma isotonic_function d X y lo hi : sorted_rows X -> X <> [] -> length X = length y -> (forall x, In x y -> lo <= x <= hi) ->
  exists b g, keeps_direction d b /\
    (forall rows, predict (isotonic d) (fit (isotonic d) X y) (map (fun q => [Fin q]) rows) = map (fun q => Some (g q)) rows) /\
    (forall q q', (q <= q')%Q -> if b then g q <= g q' else g q' <= g q) /\
    (forall q, lo <= g q <= hi).
Proof.
  intros S0 Ne L Hr. pose proof (isotonic_fit_best d X y L) as (B1 & B2 & _).
  cbn [predict fit isotonic]. fold (direction_bool d X y). fold (inverse_variances X).
  set (vs := isotonic_values (direction_bool d X y) (inverse_variances X) y) in *.
  assert (Lv : length vs = length X) by congruence.
  pose proof (ordered_state X vs S0 Lv) as O0.
  assert (Sn : map snd (combine (map abscissa X) vs) = vs) by (apply snd_combine_ge; now rewrite map_length).
  set (pts := combine (map abscissa X) vs) in *.
  assert (E : forall q, interpolate pts q = Some (match interpolate pts q with Some u => u | None => 0 end)).
  { intro q. destruct pts as [|[x0 y0] r] eqn:Ep; [|reflexivity]. exfalso.
    cbn in Sn. rewrite <- Sn in Lv. destruct X; [congruence|discriminate]. }
  exists (direction_bool d X y), (fun q => match interpolate pts q with Some u => u | None => 0 end).
  split; [apply direction_kept|]. split; [|split].
  - intro rows. rewrite map_map. apply map_ext. exact E.
  - intros q q' Hq. destruct (direction_bool d X y).
    + eapply interpolate_mono; [exact O0|exact Hq| |apply E|apply E]. rewrite Sn. exact B2.
    + eapply interpolate_anti; [exact O0|exact Hq| |apply E|apply E]. rewrite Sn. exact B2.
  - intro q. apply (isotonic_range d X y q _ lo hi S0 L Hr). cbn [predict fit isotonic map].
    fold (direction_bool d X y). fold (inverse_variances X). fold vs. fold pts. now rewrite E at 1.
Qed.

Lemma monotonic_continuous p : is_monotonic_set p = true -> is_continuous_set p = true.
Proof.
  unfold is_monotonic_set, is_continuous_set, flag_set. rewrite !N.eqb_eq. intro H.
  change IS_CONTINUOUS with (N.land IS_MONOTONIC 1%N) at 1. rewrite N.land_assoc, H. reflexivity.
Qed.

Definition chosen_direction (p : N) (d : direction) : Prop :=
  (monotonic_increasing p -> d = IncreasingOnly) /\ (monotonic_decreasing p -> d = DecreasingOnly).

Lemma flagged_choice {K} c ut un (explicit : list K -> option smoother) name p : c <> ChoiceNone ->
  explicit [name] = None -> monotonic p ->
  exists d, chosen_direction p d /\
    choice_fct c ut un explicit [name] [p] =
    Some (determine_meta_smoother (Isotonic d) un (if ut then Some Interpolating else None)).
Proof.
  intros Hc He (M & Li & Se). pose proof (monotonic_continuous p M) as Co.
  assert (T : reg_type_1 p = Interpolating) by (unfold reg_type_1; now rewrite Li, Se, Co).
  assert (G : exists d, chosen_direction p d /\ get_onedim_smoother un explicit p name = Some (Isotonic d)).
  { unfold get_onedim_smoother, simplify_flags. rewrite He, Li, Se, M. unfold chosen_direction, monotonic_increasing, monotonic_decreasing.
    destruct (increasing_set p); [|destruct (decreasing_set p)].
    - exists IncreasingOnly. split; [|reflexivity]. split; [reflexivity|]. intros (_ & H & _). discriminate.
    - exists DecreasingOnly. split; [|reflexivity]. split; [intros (_ & H); discriminate|reflexivity].
    - exists AutoDirection. split; [|reflexivity]. split; [intros (_ & H); discriminate|intros (_ & _ & H); discriminate]. }
  destruct G as (d & D & G). exists d. split; [exact D|].
  destruct c; [| |congruence]; cbn [choice_fct].
  - unfold choice_weighted_mean. rewrite He. cbn [raw_weighted_mean]. rewrite G. f_equal. unfold wrap_smoother.
    unfold determine_reg_type. cbn [combine map snd existsb]. rewrite T. reflexivity.
  - unfold choice_group_by. rewrite He. unfold raw_group_by. cbn [last_opt rev app]. rewrite G. cbn [List.length Nat.ltb Nat.leb].
    unfold wrap_innermost. cbn [is_group_by last_opt rev app]. now rewrite T.
Qed.

(** ** On the bins of a feature *)
Lemma smoother_rows_length n w u : length (smoother_rows n w u) = n.
Proof. unfold smoother_rows. now rewrite map_length, seq_length. Qed.
Lemma smoother_rows_nth n w u k r : nth_error (smoother_rows n w u) k = Some r ->
  r = {| r_x := bin_row k; r_w := nth k w 0%Q; r_u := nth k u 0 |} /\ (k < n)%nat.
Proof.
  intro E. assert (Hk : (k < n)%nat). { rewrite <- (smoother_rows_length n w u). apply nth_error_Some. congruence. }
  split; [|exact Hk]. unfold smoother_rows in E. rewrite nth_error_map in E.
  rewrite (nth_error_nth' (seq 0 n) 0%nat) in E by (rewrite seq_length; lia). rewrite seq_nth in E by lia.
  cbn [option_map Nat.add] in E. now injection E as <-.
Qed.
Lemma smoother_rows_sorted n w u : sorted_rows (smoother_rows n w u).
Proof.
  split.
  - intros r I. destruct (In_nth_error _ _ I) as (k & E). apply smoother_rows_nth in E. destruct E as [-> _]. eexists. reflexivity.
  - intros i j a b Hij Ea Eb. apply smoother_rows_nth in Ea, Eb. destruct Ea as [-> _]. destruct Eb as [-> _]. cbn.
    rewrite <- Zlt_Qlt. lia.
Qed.
Lemma smoother_rows_bins n w u : (0 < n)%nat -> bins_of [Z.of_nat n] (smoother_rows n w u).
Proof.
  intro P. unfold bins_of. rewrite arange_multi_rows by (constructor; [lia|constructor]).
  replace (Z.to_nat (size [Z.of_nat n])) with n by (cbn; lia).
  assert (G : forall l, (forall k, In k l -> (k < n)%nat) ->
    Forall2 (fun r t => holds_tuple (r_x r) t)
      (map (fun k => {| r_x := bin_row k; r_w := nth k w 0%Q; r_u := nth k u 0 |}) l)
      (map (fun i => digits [Z.of_nat n] (Z.of_nat i)) l)).
  { induction l as [|k l IH]; intro H; cbn [map]; constructor; [|apply IH; intros k' I; apply H; now right].
    pose proof (H k (or_introl eq_refl)). cbn [r_x].
    replace (digits [Z.of_nat n] (Z.of_nat k)) with [Z.of_nat k].
    - constructor; [|constructor]. eexists. split; reflexivity.
    - cbn. f_equal. rewrite ?Z.div_1_r. rewrite ?Z.mod_small; lia. }
  apply G. intros k I. apply in_seq in I. lia.
Qed.

Lemma bins_rows n w u : Forall2 (fun row r => exists q, row = [Fin q] /\ q = abscissa r)
  (map bin_row (seq 0 n)) (smoother_rows n w u).
Proof.
  unfold smoother_rows. induction (seq 0 n) as [|k l IH]; cbn; constructor; [|exact IH].
  eexists. split; reflexivity.
Qed.

(** What the chosen smoothers have in common on the bins. *)
Definition best_on_bins (ok : bool -> Prop) (s : smoothing_alg) : Prop :=
  leaves_rows s /\
  forall n w u y, length y = n -> exists b v, ok b /\ best_monotone b (inverse_variances (smoother_rows n w u)) y v /\
    predict s (fit s (smoother_rows n w u) y) (map bin_row (seq 0 n)) = map Some v.

Lemma isotonic_on_bins d : best_on_bins (keeps_direction d) (isotonic d).
Proof.
  split; [intros st rows; reflexivity|]. intros n w u y L. set (X := smoother_rows n w u).
  assert (LX : length X = length y) by (unfold X; now rewrite smoother_rows_length).
  exists (direction_bool d X y), (isotonic_values (direction_bool d X y) (inverse_variances X) y).
  pose proof (isotonic_fit_best d X y LX) as B. split; [apply direction_kept|]. split; [exact B|].
  cbn [predict fit isotonic]. fold (direction_bool d X y). fold (inverse_variances X).
  apply isotonic_at_rows; [apply smoother_rows_sorted|destruct B; congruence|apply bins_rows].
Qed.

Lemma normalized_on_bins ok s : best_on_bins ok s -> best_on_bins ok (normalization s).
Proof.
  intros [P H]. split; [intros [m st] rows; apply P|]. intros n w u y L.
  cbn [predict fit normalization fst snd]. set (X := smoother_rows n w u). set (m := calc_norm X y).
  destruct (H n w u (map (fun v => v - m) y)) as (b & v & O & B & E); [now rewrite map_length|].
  exists b, (map (fun x => x + m) v). split; [exact O|]. split.
  - apply best_shift; [|exact B]. unfold inverse_variances, X. now rewrite map_length, smoother_rows_length.
  - fold X in E. rewrite E, !map_map. reflexivity.
Qed.

Lemma cut_same s n w u y (v : list R) : leaves_rows s -> length v = n ->
  predict s (fit s (smoother_rows n w u) y) (map bin_row (seq 0 n)) = map Some v ->
  predict (regression_type_smoother 1 Interpolating s) (fit (regression_type_smoother 1 Interpolating s) (smoother_rows n w u) y)
    (map bin_row (seq 0 n)) = map Some v.
Proof.
  intros P Lv E.
  cbn [predict fit regression_type_smoother fst snd apply_cut]. rewrite P, E.
  destruct n as [|n]; [destruct v; [reflexivity|discriminate]|].
  assert (Sh : shape [Z.of_nat (S n)]) by (apply Forall_cons; [lia|apply Forall_nil]).
  rewrite (n_bins_of_bins [Z.of_nat (S n)] _ Sh (smoother_rows_bins (S n) w u ltac:(lia)) : n_bins_of 1 _ = _).
  rewrite map_map.
  assert (Z : map (fun k => outside_bins (bin_row k) [Z.of_nat (S n)]) (seq 0 (S n)) = repeat false (S n)).
  { assert (F : Forall (fun k => outside_bins (bin_row k) [Z.of_nat (S n)] = false) (seq 0 (S n))).
    { apply Forall_forall. intros k I. apply in_seq in I. unfold outside_bins, bin_row.
      cbn [existsb is_nan negb andb orb combine lt_fnum gt_fnum fst snd].
      rewrite (qle_true 0) by (change 0%Q with (inject_Z 0); rewrite <- Zle_Qle; lia).
      rewrite qle_true; [reflexivity|].
      apply (Qle_trans _ (inject_Z (Z.of_nat (S n)) - 1)).
      - change 1%Q with (inject_Z 1). unfold Qminus. rewrite <- inject_Z_opp, <- inject_Z_plus, <- Zle_Qle. lia.
      - unfold Qminus. apply Qplus_le_compat; [apply Qle_refl|]. discriminate. }
    replace (repeat false (S n)) with (repeat false (List.length (seq 0 (S n)))) by now rewrite seq_length.
    clear -F. induction F as [|k l E F IH]; [reflexivity|]. cbn [map List.length repeat]. rewrite E. f_equal. exact IH. }
  rewrite Z. unfold cut_at. clear -Lv. revert v Lv.
  induction (S n) as [|k IH]; intros [|x v] Lv; try discriminate; [reflexivity|]. cbn. f_equal. apply IH. now injection Lv.
Qed.

Lemma cut_on_bins ok s : best_on_bins ok s -> best_on_bins ok (regression_type_smoother 1 Interpolating s).
Proof.
  intros [P H]. split; [intros [m st] rows; apply P|]. intros n w u y L.
  destruct (H n w u y L) as (b & v & O & B & E). exists b, v. split; [exact O|]. split; [exact B|].
  apply cut_same; [exact P|destruct B; congruence|exact E].
Qed.

Lemma flagged_smoother {K} c ut un (explicit : list K -> option smoother) name p other s : c <> ChoiceNone ->
  explicit [name] = None -> monotonic p -> choice_fct c ut un explicit [name] [p] = Some s ->
  best_on_bins (fun b => (monotonic_increasing p -> b = true) /\ (monotonic_decreasing p -> b = false)) (smoother_alg other s).
Proof.
  intros Hc He M E. destruct (flagged_choice c ut un explicit name p Hc He M) as (d & [D1 D2] & E'). rewrite E in E'. injection E' as ->.
  assert (I : best_on_bins (fun b => (monotonic_increasing p -> b = true) /\ (monotonic_decreasing p -> b = false)) (isotonic d)).
  { destruct (isotonic_on_bins d) as [P H]. split; [exact P|]. intros n w u y L. destruct (H n w u y L) as (b & v & O & B).
    exists b, v. split; [|exact B]. split; intro X; [rewrite (D1 X) in O|rewrite (D2 X) in O]; exact O. }
  destruct ut, un; cbn [determine_meta_smoother smoother_alg].
  - change (best_on_bins (fun b => (monotonic_increasing p -> b = true) /\ (monotonic_decreasing p -> b = false))
      (regression_type_smoother 1 Interpolating (normalization (isotonic d)))).
    apply cut_on_bins, normalized_on_bins, I.
  - apply cut_on_bins, I.
  - apply normalized_on_bins, I.
  - exact I.
Qed.
