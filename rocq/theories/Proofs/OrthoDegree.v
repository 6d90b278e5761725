(** The number of coefficients, and the whole smoother. *)
From Coq Require Import ZArith QArith Qreals List Bool Reals Lia Lra.
From Verif.Model Require Import Num LexBins Train SmootherChoice MetaSmoothers Orthofit.
From Verif.Spec Require Import LexSpec MetaSpec OrthoSpec.
From Verif.Proofs Require Import NumFacts TrainFacts LinkFacts MetaFacts CutFacts MetaExamples OrthoFacts.
Import ListNotations.
Local Open Scope R_scope.

Lemma least_error_unique pts m c c' : least_squares pts m c -> least_squares pts m c' ->
  squared_error pts (poly c) = squared_error pts (poly c').
Proof. intros [L H] [L' H']. destruct (H c' L') as [A _]. destruct (H' c L) as [B _]. lra. Qed.

Section Degree.
Variable pts : list point.
Hypothesis PR : proper pts.
Notation n := (length pts).
Notation top := (Nat.min N_PARAMETERS (length pts)).
Variable E : nat -> R.
Hypothesis HE : smallest_errors pts top E.

Lemma top_pos : (1 <= top)%nat.
Proof. destruct PR as (NE & _). destruct pts; [congruence|]. cbn. lia. Qed.

Lemma E_est m : (1 <= m <= top)%nat -> E m = squared_error pts (est pts m).
Proof.
  intro H. destruct (HE m H) as (c & L & Ec). rewrite Ec.
  destruct (est_least pts PR m) as (c' & E' & L'); [lia|lia|].
  rewrite (error_ext pts (est pts m) (poly c')) by exact E'. now apply (least_error_unique pts m).
Qed.
Lemma E_sum k : (k < top)%nat -> SS pts k = E (S k).
Proof. intro H. rewrite E_est by lia. apply SS_error; [exact PR|lia]. Qed.
Lemma E_delta k : (1 <= k < top)%nat -> D pts k ^ 2 = E k - E (S k).
Proof.
  intro H. rewrite !E_est by lia. rewrite !error_est by (try exact PR; lia).
  rewrite (sum_S (fun i => D pts i ^ 2) k). ring.
Qed.

Lemma Rltb_dec a b : Rltb a b = if Rlt_dec a b then true else false.
Proof. destruct (Rlt_dec a b) as [H|H]; [now apply Rltb_iff|]. destruct (Rltb a b) eqn:X; [|reflexivity]. apply Rltb_iff in X. contradiction. Qed.

Lemma total_strikes_S m : (2 <= m)%nat -> total_strikes E (S m) = (total_strikes E m + strikes E (S m))%nat.
Proof.
  intro H. unfold total_strikes. replace (S m - 2)%nat with (S (m - 2)) by lia.
  rewrite seq_S, map_app, list_sum_app. cbn [map list_sum fold_right]. replace (3 + (m - 2))%nat with (S m) by lia. lia.
Qed.

Lemma loop_eq r : forall k, (2 <= k)%nat -> (k + r = top)%nat ->
  (forall j, (3 <= j <= k)%nat -> ~ enough E n j) -> (r = 0%nat -> (3 <= k)%nat) ->
  first_enough E n top
    (significant_loop (map (the_row pts) (seq k r)) (D pts (k - 1)) k (total_strikes E k) n (if Nat.eqb r 0 then k else top)).
Proof.
  induction r as [|r IH]; intros k Hk Ht Hn Hr.
  - specialize (Hr eq_refl). change (significant_loop (map (the_row pts) (seq k 0)) (D pts (k - 1)) k (total_strikes E k) n (if Nat.eqb 0 0 then k else top)) with k. right. split; [lia|]. split; [|left; lia]. intros j Hj. apply Hn. lia.
  - cbn [seq map significant_loop Nat.eqb].
    destruct k as [|k]; [lia|]. cbn [the_row o_sum o_delta].
    rewrite (E_sum (S k)) by lia. rewrite (E_delta (S k)) by lia.
    replace (S k - 1)%nat with k by lia. rewrite (E_delta k) by lia.
    rewrite !Rltb_dec.
    assert (TS : total_strikes E (S (S k)) = (total_strikes E (S k) + strikes E (S (S k)))%nat) by (apply total_strikes_S; lia).
    destruct (Rlt_dec (E (S (S k))) (INR n - INR (S (S k)))) as [G|G].
    + right. split; [lia|]. split; [intros j Hj; apply Hn; lia|]. right. now left.
    + set (npp := if (if Rlt_dec (E (S k) - E (S (S k)) + (E k - E (S k))) 6 then true else false)
                  then S (if (if Rlt_dec (E (S k) - E (S (S k))) (384 / 100) then true else false) then S (total_strikes E (S k)) else total_strikes E (S k))
                  else if (if Rlt_dec (E (S k) - E (S (S k))) (384 / 100) then true else false) then S (total_strikes E (S k)) else total_strikes E (S k)).
      assert (Enpp : npp = total_strikes E (S (S k))).
      { rewrite TS. unfold strikes, npp. replace (S (S k) - 1)%nat with (S k) by lia. replace (S (S k) - 2)%nat with k by lia.
        replace (E (S k) - E (S (S k)) + (E k - E (S k))) with (E k - E (S (S k))) by ring.
        destruct (Rlt_dec (E k - E (S (S k))) 6), (Rlt_dec (E (S k) - E (S (S k))) (384 / 100)); lia. }
      rewrite Enpp.
      destruct (Nat.leb 4 (total_strikes E (S (S k)))) eqn:L4.
      * apply Nat.leb_le in L4. right. split; [lia|]. split; [intros j Hj; apply Hn; lia|]. right. now right.
      * apply Nat.leb_gt in L4.
        assert (Hn' : forall j, (3 <= j <= S (S k))%nat -> ~ enough E n j).
        { intros j Hj. destruct (Nat.eq_dec j (S (S k))) as [->|N]; [|apply Hn; lia]. intros [X|X]; [contradiction|lia]. }
        specialize (IH (S (S k)) ltac:(lia) ltac:(lia) Hn' ltac:(lia)).
        replace (S (S k) - 1)%nat with (S k) in IH by lia.
        destruct r as [|r]; cbn [Nat.eqb] in IH; [exact IH|].
        (* the result so far is irrelevant while rows remain *)
        cbn [seq map significant_loop] in IH |- *. exact IH.
Qed.

Lemma significant_eq : first_enough E n top (significant_parameters (fit_orthogonal_poly pts) n).
Proof.
  rewrite fit_rows. pose proof top_pos as T. replace (S (top - 1)) with top by lia.
  assert (C : (top = 1 \/ top = 2 \/ 3 <= top)%nat) by lia.
  destruct C as [C|[C|C]].
  - rewrite C. cbn. left. lia.
  - rewrite C. cbn. left. lia.
  - pose proof (loop_eq (top - 2) 2 ltac:(lia) ltac:(lia) ltac:(intros; lia) ltac:(lia)) as L.
    rewrite (proj2 (Nat.eqb_neq (top - 2) 0)) in L by lia.
    assert (S2 : seq 0 top = 0%nat :: 1%nat :: seq 2 (top - 2)).
    { replace top with (S (S (top - 2))) at 1 by lia. reflexivity. }
    rewrite S2. cbn [map significant_parameters]. cbn [the_row o_delta] in L |- *.
    replace (length (first_row pts :: _ :: map (the_row pts) (seq 2 (top - 2)))) with top
      by (cbn [length]; rewrite map_length, seq_length; lia).
    exact L.
Qed.

Lemma used_eq s : first_enough E n top s -> reduce_parameters s top n = used_coefficients n s.
Proof.
  intro F. assert (s <= top)%nat by (destruct F as [[? ?]|[? ?]]; lia).
  unfold reduce_parameters, used_coefficients. rewrite Nat.min_r by lia.
  destruct (Nat.eqb s n); [|reflexivity].
  rewrite Nat.leb_antisym. destruct (Nat.ltb 2 n); [|reflexivity]. cbn [negb].
  unfold custom_clip. change N_PARAMETERS with 21%nat.
  destruct (Nat.leb 2 (n / 5)) eqn:A, (Nat.leb (n / 5) 21) eqn:B, (Nat.ltb (n / 5) 2) eqn:C;
    cbn [andb]; try apply Nat.leb_le in A; try apply Nat.leb_le in B; try apply Nat.leb_gt in A; try apply Nat.leb_gt in B;
    try apply Nat.ltb_lt in C; try apply Nat.ltb_ge in C; lia.
Qed.

Lemma rows_length : length (fit_orthogonal_poly pts) = top.
Proof. rewrite fit_rows, map_length, seq_length. pose proof top_pos. lia. Qed.

Lemma used_range s : first_enough E n top s -> (1 <= used_coefficients n s <= top)%nat.
Proof.
  intro F. pose proof top_pos. assert (T : (top <= n)%nat) by lia. assert (T1 : (top <= 21)%nat) by (unfold N_PARAMETERS; lia).
  assert (1 <= s <= top)%nat by (destruct F as [[? ?]|[? ?]]; lia).
  unfold used_coefficients. destruct (Nat.eqb s n) eqn:X; [|lia]. apply Nat.eqb_eq in X.
  destruct (Nat.leb n 2) eqn:Y; [lia|]. apply Nat.leb_gt in Y.
  assert (n / 5 <= n)%nat by (apply Nat.div_le_upper_bound; lia). lia.
Qed.
End Degree.

Lemma smallest_exists pts : proper pts -> smallest_errors pts (Nat.min N_PARAMETERS (length pts)) (fun m => squared_error pts (est pts m)).
Proof.
  intros PR m H. destruct (est_least pts PR m) as (c & E & L); [lia|lia|]. exists c. split; [exact L|].
  now apply error_ext.
Qed.

(** The fitted function. *)
Lemma ortho_fit_result pts E : proper pts -> smallest_errors pts (Nat.min 21 (length pts)) E ->
  exists s c, first_enough E (length pts) (Nat.min 21 (length pts)) s /\
    least_squares pts (used_coefficients (length pts) s) c /\
    forall x, ortho_apply (fst (ortho_fit pts)) (snd (ortho_fit pts)) x = poly c x.
Proof.
  intros PR HE. pose proof (significant_eq pts PR E HE) as F.
  set (s := significant_parameters (fit_orthogonal_poly pts) (length pts)) in *.
  pose proof (used_range pts PR E HE s F) as U.
  destruct (est_least pts PR (used_coefficients (length pts) s)) as (c & Ec & Lc); [lia|lia|].
  exists s, c. split; [exact F|]. split; [exact Lc|]. intro x. rewrite <- Ec.
  unfold ortho_fit. cbn [fst snd]. fold s. rewrite (rows_length pts PR E HE).
  rewrite (used_eq pts E s F). apply apply_eq. lia.
Qed.

Lemma each_degree pts m : proper pts -> (1 <= m <= Nat.min 21 (length pts))%nat ->
  exists c, least_squares pts m c /\ forall x, ortho_apply (fit_orthogonal_poly pts) m x = poly c x.
Proof.
  intros PR H. destruct (est_least pts PR m) as (c & Ec & Lc); [lia|lia|]. exists c. split; [exact Lc|].
  intro x. rewrite <- Ec. now apply apply_eq.
Qed.

(** Data on a polynomial is reproduced. *)
Lemma poly_pad c k x : poly (c ++ repeat 0 k) x = poly c x.
Proof.
  induction c as [|a c IH]; cbn; [|now rewrite IH]. induction k as [|k IHk]; cbn; [reflexivity|]. rewrite IHk. ring.
Qed.
Lemma least_squares_exact pts m c c0 : proper pts -> least_squares pts m c -> (length c0 <= m)%nat ->
  (forall p, In p pts -> p_y p = poly c0 (p_x p)) -> forall x, poly c x = poly c0 x.
Proof.
  intros PR [L H] Lc Y x. set (c1 := c0 ++ repeat 0 (m - length c0)).
  assert (L1 : length c1 = m) by (unfold c1; rewrite app_length, repeat_length; lia).
  assert (Z : squared_error pts (poly c1) = 0).
  { unfold squared_error. rewrite (sumR_map_ext_in _ (fun _ => 0)); [apply sumR_map_zero|].
    intros p I. rewrite (Y p I). unfold c1. rewrite poly_pad. ring. }
  destruct (H c1 L1) as [_ U]. rewrite Z in U.
  assert (N : 0 <= squared_error pts (poly c)).
  { apply sumR_nonneg. intros p I. apply Rmult_le_pos; [apply Rlt_le; now apply PR|apply pow2_ge_0]. }
  specialize (U N x). unfold c1 in U. rewrite poly_pad in U. now symmetry.
Qed.

(** ** The smoother *)
Lemma fmin_le a b : (fmin a b <= a)%Q /\ (fmin a b <= b)%Q.
Proof.
  unfold fmin. destruct (Qle_bool a b) eqn:E.
  - apply Qle_bool_iff in E. split; [apply Qle_refl|exact E].
  - split; [|apply Qle_refl]. apply not_true_iff_false in E. rewrite Qle_bool_iff in E. apply Qnot_le_lt in E. now apply Qlt_le_weak.
Qed.
Lemma fold_fmin_le l : forall a, (fold_left fmin l a <= a)%Q /\ forall x, In x l -> (fold_left fmin l a <= x)%Q.
Proof.
  induction l as [|y l IH]; intro a; cbn; [split; [apply Qle_refl|intros ? []]|].
  destruct (IH (fmin a y)) as [H1 H2]. destruct (fmin_le a y) as [G1 G2].
  split; [eapply Qle_trans; eauto|]. intros x [<-|I]; [eapply Qle_trans; eauto|auto].
Qed.
Lemma fold_fmin_in l : forall a, In (fold_left fmin l a) (a :: l).
Proof.
  induction l as [|y l IH]; intro a; cbn [fold_left]; [now left|].
  destruct (IH (fmin a y)) as [H|H]; [|right; now right]. unfold fmin in H at 1. destruct (Qle_bool a y); [left|right; left]; exact H.
Qed.
Lemma fold_fmax_in l : forall a, In (fold_left fmax l a) (a :: l).
Proof.
  induction l as [|y l IH]; intro a; cbn [fold_left]; [now left|].
  destruct (IH (fmax a y)) as [H|H]; [|right; now right]. unfold fmax in H at 1. destruct (Qle_bool a y); [right; left|left]; exact H.
Qed.

Lemma coordinate_first X : usable_rows X -> map (fun r => Q2R (first_coordinate (r_x r))) X = map coordinate X.
Proof.
  intros (_ & _ & H). apply map_ext_in. intros r I. destruct (H r I) as ((q & rest & E) & _).
  unfold first_coordinate, coordinate. rewrite E. reflexivity.
Qed.

Lemma points_eq X y : usable_rows X -> length X = length y ->
  weighted_points (map Q2R (map (fun r => first_coordinate (r_x r)) X)) y (map r_u X) = points_of X y.
Proof.
  intros U L. rewrite map_map, (coordinate_first X U). destruct U as (_ & _ & H).
  unfold weighted_points, points_of. revert y L. induction X as [|r X IH]; intros [|v y] L; try discriminate; [reflexivity|].
  cbn [map combine map2 fst snd]. f_equal.
  - f_equal. destruct (H r (or_introl eq_refl)) as [_ P]. unfold Rdiv. rewrite Rmult_1_l. f_equal. ring.
  - apply IH; [|now injection L]. intros r' I. apply H. now right.
Qed.

Lemma points_proper X y : usable_rows X -> length X = length y -> proper (points_of X y).
Proof.
  intros (NE & ND & H) L. unfold points_of.
  assert (E : map p_x (map2 (fun r v => {| p_x := coordinate r; p_y := v; p_w := / (r_u r) ^ 2 |}) X y) = map coordinate X).
  { clear -L. revert y L. induction X as [|r X IH]; intros [|v y] L; try discriminate; [reflexivity|]. cbn. f_equal. apply IH. now injection L. }
  split; [|split].
  - destruct X, y; try discriminate; congruence.
  - now rewrite E.
  - clear NE ND E. revert y L. induction X as [|r X IH]; intros [|v y] L p I; try discriminate; [destruct I|].
    destruct I as [<-|I].
    + cbn [p_w]. apply Rinv_0_lt_compat. apply pow_lt. apply H. now left.
    + apply (IH ltac:(intros r' I'; apply H; now right) y); [now injection L|exact I].
Qed.
Lemma points_length X y : length X = length y -> length (points_of X y) = length X.
Proof. unfold points_of. revert y. induction X as [|r X IH]; intros [|v y] L; try discriminate; [reflexivity|]. cbn. f_equal. apply IH. now injection L. Qed.

Lemma clamp_fin lo hi q : (lo <= hi)%Q ->
  exists q', clamp lo hi (Fin q) = Fin q' /\ Q2R q' = Rmax (Q2R lo) (Rmin (Q2R hi) (Q2R q)).
Proof.
  intro LH. apply Qle_Rle in LH. cbn. destruct (Qle_bool lo q) eqn:A; cbn [negb].
  - apply Qle_bool_iff, Qle_Rle in A. destruct (Qle_bool q hi) eqn:B; cbn [negb].
    + apply Qle_bool_iff, Qle_Rle in B. exists q. split; [reflexivity|]. rewrite Rmin_right, Rmax_right; lra.
    + exists hi. split; [reflexivity|]. apply not_true_iff_false in B. rewrite Qle_bool_iff in B. apply Qnot_le_lt, Qlt_Rlt in B.
      rewrite Rmin_left, Rmax_right; lra.
  - exists lo. split; [reflexivity|]. apply not_true_iff_false in A. rewrite Qle_bool_iff in A. apply Qnot_le_lt, Qlt_Rlt in A.
    rewrite Rmin_right, Rmax_left; lra.
Qed.

Lemma smoother_result X y rows E : usable_rows X -> length X = length y ->
  smallest_errors (points_of X y) (Nat.min 21 (length X)) E ->
  exists s c lo hi, first_enough E (length X) (Nat.min 21 (length X)) s /\
    least_squares (points_of X y) (used_coefficients (length X) s) c /\ coordinate_range X lo hi /\
    (forall i q rest, nth_error rows i = Some (Fin q :: rest) ->
       nth_error (predict orthogonal_polynomial (fit orthogonal_polynomial X y) rows) i =
       Some (Some (poly c (Rmax lo (Rmin hi (Q2R q)))))) /\
    (forall i rest, nth_error rows i = Some (NaN :: rest) ->
       nth_error (predict orthogonal_polynomial (fit orthogonal_polynomial X y) rows) i = Some None).
Proof.
  intros U L HE. pose proof (points_proper X y U L) as PR. pose proof (points_length X y L) as LP.
  rewrite <- LP in HE. destruct (ortho_fit_result _ E PR HE) as (s & c & F & LS & AP). rewrite LP in *.
  set (x := map (fun r => first_coordinate (r_x r)) X).
  set (lo := fold_left fmin (tl x) (hd 0%Q x)). set (hi := fold_left fmax (tl x) (hd 0%Q x)).
  assert (NX : exists a l, x = a :: l).
  { destruct U as (NE & _). unfold x. destruct X as [|r X']; [congruence|]. cbn. eauto. }
  destruct NX as (a & l & EX).
  assert (LH : (lo <= hi)%Q).
  { unfold lo, hi. rewrite EX. cbn [tl hd]. apply (Qle_trans _ a); [apply (proj1 (fold_fmin_le l a))|apply (proj1 (fold_fmax_ge l a))]. }
  assert (CM : map Q2R x = map coordinate X) by (unfold x; rewrite map_map; now apply coordinate_first).
  exists s, c, (Q2R lo), (Q2R hi). split; [exact F|]. split; [exact LS|]. split; [|split].
  - unfold coordinate_range. rewrite <- CM. split; [|split].
    + intros r I. assert (Ic : In (coordinate r) (map Q2R x)) by (rewrite CM; now apply in_map).
      apply in_map_iff in Ic. destruct Ic as (q & <- & Iq). unfold lo, hi. rewrite EX in *. cbn [tl hd].
      destruct (fold_fmin_le l a) as [A1 A2]. destruct (fold_fmax_ge l a) as [B1 B2].
      destruct Iq as [<-|Iq]; split; apply Qle_Rle; auto.
    + apply in_map. unfold lo. rewrite EX. cbn [tl hd]. apply fold_fmin_in.
    + apply in_map. unfold hi. rewrite EX. cbn [tl hd]. apply fold_fmax_in.
  - intros i q rest N. cbn [predict fit orthogonal_polynomial fst snd].
    rewrite (map_nth_error _ i rows N). cbn [hd]. fold x. fold lo. fold hi.
    destruct (clamp_fin lo hi q LH) as (q' & -> & E'). do 2 f_equal.
    unfold x. rewrite (points_eq X y U L), <- E'. apply AP.
  - intros i rest N. cbn [predict fit orthogonal_polynomial fst snd].
    rewrite (map_nth_error _ i rows N). reflexivity.
Qed.

(** The cut of an interpolating feature sees the clamped coordinates. *)
Lemma cut_clamped : exists n X y row v,
  shape n /\ bins_of n X /\ usable_rows X /\ length X = length y /\ length row = length n /\ finite_row row /\
  ~ within_bins n row /\
  let S := regression_type_smoother (length n) Interpolating orthogonal_polynomial in
  predict S (fit S X y) [row] = [Some v].
Proof.
  exists [3%Z], ex_rows, [1; 2; 3], [Fin 10].
  eexists. split; [repeat constructor|]. split; [exact ex_rows_bins|]. split; [|split; [reflexivity|split; [reflexivity|split; [|split]]]].
  - split; [discriminate|]. split.
    + unfold ex_rows, bin, coordinate, Q2R. cbn. repeat constructor; cbn; intuition lra.
    + intros r [<-|[<-|[<-|[]]]]; (split; [cbn; eauto|cbn; lra]).
  - intros z [<-|[]]. eauto.
  - intro H. inversion H as [|? ? ? ? (q & E & [_ Q]) _]; subst. injection E as <-. now apply Q.
  - cbn -[ortho_fit ortho_apply weighted_points]. reflexivity.
Qed.

Lemma ex_usable : usable_rows ex_rows /\ length ex_rows = length [1; 2; 3].
Proof.
  split; [|reflexivity]. split; [discriminate|]. split.
  - unfold ex_rows, bin, coordinate, Q2R. cbn. repeat constructor; cbn; intuition lra.
  - intros r [<-|[<-|[<-|[]]]]; (split; [cbn; eauto|cbn; lra]).
Qed.
Lemma ex_errors : exists E, smallest_errors (points_of ex_rows [1; 2; 3]) (Nat.min 21 (length ex_rows)) E.
Proof.
  eexists. apply (smallest_exists (points_of ex_rows [1; 2; 3])). now apply points_proper; apply ex_usable.
Qed.
