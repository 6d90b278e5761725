(** Facts about the meta-smoothers. *)
From Coq Require Import ZArith QArith Qreals Qround List Bool Reals Lia Lra.
From Verif.Model Require Import Num LexBins Train SmootherChoice MetaSmoothers.
From Verif.Spec Require Import LexSpec RegularizeSpec MetaSpec.
From Verif.Proofs Require Import NumFacts TrainFacts LexFacts TotalFacts ImportanceFacts.
Import ListNotations.
Local Open Scope R_scope.

(** ** Normalisation *)
Lemma sumR_shift (y : list R) (X : list srow) (m : R) : length y = length X ->
  sumR (map2 (fun v r => v * Q2R (r_w r)) (map (fun v => v - m) y) X) =
  sumR (map2 (fun v r => v * Q2R (r_w r)) y X) - m * sumR (weights_of X).
Proof.
  revert X. induction y as [|v y IH]; intros [|r X] L; try discriminate; cbn; [lra|].
  unfold weights_of in IH. rewrite IH by (now injection L). unfold sumR. cbn. lra.
Qed.

Lemma map2_weights (y : list R) X : map2 Rmult y (weights_of X) = map2 (fun v r => v * Q2R (r_w r)) y X.
Proof. revert X. induction y as [|v y IH]; intros [|r X]; cbn; [reflexivity..|]. f_equal. apply IH. Qed.

Lemma calc_norm_centres X y : length X = length y -> 0 < sumR (weights_of X) ->
  sumR (map2 Rmult (map (fun v => v - calc_norm X y) y) (weights_of X)) = 0.
Proof.
  intros L P. rewrite map2_weights, sumR_shift by (now symmetry).
  unfold calc_norm. fold (weights_of X). rewrite (proj2 (Rltb_iff _ _) P). field. lra.
Qed.

Lemma calc_norm_shift X y c : length X = length y -> 0 < sumR (weights_of X) ->
  calc_norm X (map (fun v => v + c) y) = calc_norm X y + c.
Proof.
  intros L P. unfold calc_norm. fold (weights_of X). rewrite (proj2 (Rltb_iff _ _) P).
  replace (map (fun v => v + c) y) with (map (fun v => v - (- c)) y) by (apply map_ext; intro; lra).
  rewrite sumR_shift by (now symmetry). field. lra.
Qed.

Lemma calc_norm_none X y : sumR (weights_of X) <= 0 -> calc_norm X y = 0.
Proof. intro P. unfold calc_norm. fold (weights_of X). now rewrite (proj2 (Rltb_false _ _) P). Qed.

Lemma normalization_centred s X y rows : length X = length y -> 0 < sumR (weights_of X) ->
  exists m, sumR (map2 Rmult (map (fun v => v - m) y) (weights_of X)) = 0 /\
    predict (normalization s) (fit (normalization s) X y) rows =
    map (option_map (fun v => v + m)) (predict s (fit s X (map (fun v => v - m) y)) rows).
Proof. intros L P. exists (calc_norm X y). split; [now apply calc_norm_centres|reflexivity]. Qed.

Lemma normalization_shift s X y c rows : length X = length y -> 0 < sumR (weights_of X) ->
  predict (normalization s) (fit (normalization s) X (map (fun v => v + c) y)) rows =
  map (option_map (fun v => v + c)) (predict (normalization s) (fit (normalization s) X y) rows).
Proof.
  intros L P. cbn. rewrite calc_norm_shift by assumption. rewrite map_map.
  replace (map (fun x => x + c - (calc_norm X y + c)) y) with (map (fun v => v - calc_norm X y) y)
    by (apply map_ext; intro; lra).
  rewrite map_map. apply map_ext. intros [v|]; cbn; [f_equal; lra|reflexivity].
Qed.

Lemma map_minus_zero (y : list R) : map (fun v => v - 0) y = y.
Proof. rewrite <- (map_id y) at 2. apply map_ext. intro. lra. Qed.

Lemma normalization_weightless s X y rows : sumR (weights_of X) <= 0 ->
  predict (normalization s) (fit (normalization s) X y) rows = predict s (fit s X y) rows.
Proof.
  intro P. cbn. rewrite (calc_norm_none X y P), map_minus_zero.
  rewrite <- (map_id (predict s (fit s X y) rows)) at 2. apply map_ext. intros [v|]; cbn; [f_equal; lra|reflexivity].
Qed.

Lemma normalization_cut ndim t s X y rows :
  predict (normalization_regression_type ndim t s) (fit (normalization_regression_type ndim t s) X y) rows =
  predict (regression_type_smoother ndim t (normalization s)) (fit (regression_type_smoother ndim t (normalization s)) X y) rows.
Proof. reflexivity. Qed.

(** ** Masks *)
Lemma select_filter {A} (p : A -> bool) l : select (map p l) l = filter p l.
Proof. induction l as [|x l IH]; cbn; [reflexivity|]. destruct (p x); cbn; now rewrite IH. Qed.

Lemma select_combine {A B} m (X : list A) (y : list B) : length X = length y -> length m = length X ->
  combine (select m X) (select m y) = select m (combine X y).
Proof.
  revert X y. induction m as [|b m IH]; intros [|x X] [|v y] L1 L2; try discriminate; cbn; [reflexivity|].
  destruct b; cbn; rewrite IH; auto.
Qed.
Lemma select_length {A B} m (X : list A) (y : list B) : length X = length y -> length (select m X) = length (select m y).
Proof.
  revert X y. induction m as [|b m IH]; intros [|x X] [|v y] L1; try discriminate; cbn; try reflexivity.
  - now destruct b.
  - destruct b; cbn; auto.
Qed.
Lemma select_map {A B} (f : A -> B) m l : select m (map f l) = map f (select m l).
Proof. revert l. induction m as [|b m IH]; intros [|x l]; cbn; try reflexivity; destruct b; try reflexivity; cbn; now rewrite IH. Qed.

Lemma combine_fst {A B} (X : list A) (y : list B) : length X = length y -> map fst (combine X y) = X.
Proof. revert y. induction X as [|x X IH]; intros [|v y] L; try discriminate; cbn; [reflexivity|]. f_equal. auto. Qed.
Lemma combine_snd {A B} (X : list A) (y : list B) : length X = length y -> map snd (combine X y) = y.
Proof. revert y. induction X as [|x X IH]; intros [|v y] L; try discriminate; cbn; [reflexivity|]. f_equal. auto. Qed.

Lemma select_rows {A} (p : A -> bool) X (y : list R) : length X = length y -> select (map p X) X = part_rows p X y.
Proof.
  intro L. unfold part_rows.
  rewrite <- (select_filter (fun r => p (fst r))), <- select_map, combine_fst by exact L. f_equal.
  rewrite <- (map_map fst p), combine_fst by exact L. reflexivity.
Qed.
Lemma select_targets {A} (p : A -> bool) X (y : list R) : length X = length y -> select (map p X) y = part_targets p X y.
Proof.
  intro L. unfold part_targets.
  rewrite <- (select_filter (fun r => p (fst r))), <- select_map, combine_snd by exact L. f_equal.
  rewrite <- (map_map fst p), combine_fst by exact L. reflexivity.
Qed.

Lemma assign_map {A B} (c : A -> bool) (g f : A -> B) l :
  assign (map c l) (map g l) (map f (select (map c l) l)) = map (fun x => if c x then f x else g x) l.
Proof.
  induction l as [|x l IH]; cbn; [reflexivity|].
  destruct (c x); cbn; now rewrite IH.
Qed.

(** ** Sections *)
Lemma split_condition_lower sp e row : split_condition sp e row = lower_row sp e row.
Proof.
  unfold split_condition, lower_row. destruct row as [|[q| | |] row]; cbn; try reflexivity.
  rewrite negb_involutive, andb_true_r. reflexivity.
Qed.

Lemma part_rows_nil {A} (p : A -> bool) X (y : list R) : length X = length y ->
  (part_rows p X y = [] <-> forall x, In x X -> p x = false).
Proof.
  intro L. rewrite <- (select_rows p X y L), select_filter.
  split.
  - intros E x I. destruct (p x) eqn:P; [|reflexivity].
    assert (In x (filter p X)) by (apply filter_In; auto). rewrite E in H. destruct H.
  - intro H. destruct (filter p X) as [|x r] eqn:E; [reflexivity|].
    assert (In x (filter p X)) by (rewrite E; now left). apply filter_In in H0. destruct H0 as [I P].
    rewrite (H x I) in P. discriminate.
Qed.

Lemma section_result sp e lo up nr X y rows fl fu : length X = length y -> X <> [] ->
  rowwise lo fl -> rowwise up fu ->
  exists st, section_fit sp e lo up X y = Some st /\
    section_predict sp e lo up nr st rows =
    map (fun row => if lower_row sp e row
                    then part_result lo fl (fun r => r) (fun r => lower_row sp e (r_x r)) X y row
                    else part_result up fu (fun r => r) (fun r => negb (lower_row sp e (r_x r))) X y row) rows.
Proof.
  intros L NE Wl Wu. unfold section_fit.
  set (pl := fun r => lower_row sp e (r_x r)). set (pu := fun r => negb (lower_row sp e (r_x r))).
  assert (Cl : map (fun r => split_condition sp e (r_x r)) X = map pl X).
  { apply map_ext. intro. apply split_condition_lower. }
  assert (Cu : map negb (map pl X) = map pu X) by apply map_map.
  rewrite Cl, Cu, (select_rows pl X y L), (select_targets pl X y L), (select_rows pu X y L), (select_targets pu X y L).
  set (st := (match part_rows pl X y with [] => None | _ => Some (fit lo (part_rows pl X y) (part_targets pl X y)) end,
              match part_rows pu X y with [] => None | _ => Some (fit up (part_rows pu X y) (part_targets pu X y)) end)).
  exists st. split.
  - unfold st. destruct (part_rows pl X y) eqn:E1; [|reflexivity]. destruct (part_rows pu X y) eqn:E2; [|reflexivity].
    exfalso. destruct X as [|x X]; [congruence|].
    pose proof (proj1 (part_rows_nil pl _ y L) E1 x (or_introl eq_refl)) as A.
    pose proof (proj1 (part_rows_nil pu _ y L) E2 x (or_introl eq_refl)) as B.
    unfold pl in A. unfold pu in B. rewrite A in B. discriminate.
  - unfold section_predict. rewrite (map_ext _ _ (split_condition_lower sp e) rows).
    unfold stored_nan_representation.
    assert (Nu : map negb (map (lower_row sp e) rows) = map (fun r => negb (lower_row sp e r)) rows) by apply map_map.
    rewrite Nu. unfold part_result. rewrite !map_id.
    unfold st. cbn [fst snd].
    assert (Step1 : forall st1 : option (state lo),
      match st1 with Some s => assign (map (lower_row sp e) rows) (map (fun _ => None) rows) (predict lo s (select (map (lower_row sp e) rows) rows))
                | None => map (fun _ => None) rows end =
      map (fun row => if lower_row sp e row then match st1 with Some s => fl s row | None => None end else None) rows).
    { intros [s|]; [rewrite Wl; apply (assign_map (lower_row sp e) (fun _ => None) (fl s))|].
      apply map_ext. intro. now destruct (lower_row sp e a). }
    rewrite Step1.
    assert (Step2 : forall (g : list fnum -> option R) (st2 : option (state up)), (forall r, lower_row sp e r = false -> g r = None) ->
      match st2 with Some s => assign (map (fun r => negb (lower_row sp e r)) rows) (map g rows) (predict up s (select (map (fun r => negb (lower_row sp e r)) rows) rows))
                | None => map g rows end =
      map (fun row => if lower_row sp e row then g row else match st2 with Some s => fu s row | None => None end) rows).
    { intros g [s|] Hg.
      - rewrite Wu. rewrite (assign_map (fun r => negb (lower_row sp e r)) g (fu s)).
        apply map_ext. intro. now destruct (lower_row sp e a).
      - apply map_ext. intro a. destruct (lower_row sp e a) eqn:Ea; [reflexivity|now apply Hg]. }
    rewrite Step2 by (intros r ->; reflexivity).
    apply map_ext. intro row. destruct (lower_row sp e row); [destruct (part_rows pl X y); reflexivity|].
    destruct (part_rows pu X y); reflexivity.
Qed.

(** ** Groups *)
Lemma key_eqb_iff a b : key_eqb a b = true <-> a = b.
Proof.
  revert b. induction a as [|x r IH]; intros [|y s]; cbn; try (intuition congruence).
  rewrite andb_true_iff, Z.eqb_eq, IH. intuition congruence.
Qed.
Lemma in_group_key key r : key_eqb (g_key r) key = in_group key r.
Proof.
  unfold in_group. destruct (list_eq_dec Z.eq_dec (g_key r) key) as [E|E].
  - now apply key_eqb_iff.
  - apply not_true_iff_false. now rewrite key_eqb_iff.
Qed.
Lemma in_group_iff key r : in_group key r = true <-> g_key r = key.
Proof. rewrite <- in_group_key. apply key_eqb_iff. Qed.

Lemma distinct_keys_in keys seen k : In k (distinct_keys seen keys) <-> In k keys /\ ~ In k seen.
Proof.
  revert seen. induction keys as [|x keys IH]; intro seen; cbn; [tauto|].
  destruct (existsb (key_eqb x) seen) eqn:E.
  - apply existsb_exists in E. destruct E as (z & I & E). apply key_eqb_iff in E. subst z.
    rewrite IH. intuition (subst; tauto).
  - assert (NI : ~ In x seen).
    { intro I. apply not_true_iff_false in E. apply E. apply existsb_exists. exists x. split; [exact I|now apply key_eqb_iff]. }
    cbn. rewrite IH. cbn. destruct (list_eq_dec Z.eq_dec x k) as [->|N]; intuition.
Qed.

Lemma lookup_map {A} (F : list Z -> A) ks key : lookup key (map (fun k => (k, F k)) ks) =
  if existsb (key_eqb key) ks then Some (F key) else None.
Proof.
  induction ks as [|k ks IH]; cbn; [reflexivity|].
  destruct (key_eqb k key) eqn:E.
  - apply key_eqb_iff in E. subst k. rewrite (proj2 (key_eqb_iff key key) eq_refl). reflexivity.
  - assert (E' : key_eqb key k = false).
    { apply not_true_iff_false. rewrite key_eqb_iff. intro H. apply not_true_iff_false in E. apply E. apply key_eqb_iff. now symmetry. }
    rewrite E'. exact IH.
Qed.

Lemma existsb_key_in key ks : existsb (key_eqb key) ks = true <-> In key ks.
Proof.
  rewrite existsb_exists. split.
  - intros (x & I & E). apply key_eqb_iff in E. now subst.
  - intro I. exists key. split; [exact I|now apply key_eqb_iff].
Qed.

Lemma group_weight_spec X key : group_weight X key == weight_of_group key X.
Proof.
  unfold group_weight, sumQ. induction X as [|r X IH]; cbn [filter map fold_right weight_of_group]; [reflexivity|].
  rewrite in_group_key. unfold weight_of_group. cbn [fold_right].
  destruct (in_group key r); cbn [map fold_right]; [now rewrite IH|exact IH].
Qed.

(** Predictions of one group replace the values of its rows. *)
Lemma group_fold s (f : state s -> list fnum -> option R) (gb : list (list Z * state s)) (rows : list (list Z * list fnum)) :
  rowwise s f -> forall ks g,
  fold_left (fun pred key =>
      let own := map (fun r => key_eqb (fst r) key) rows in
      match lookup key gb with
      | Some st => assign own pred (predict s st (select own (map snd rows)))
      | None => assign own pred (map (fun _ => None) (select own rows))
      end) ks (map g rows) =
  map (fun r => if existsb (key_eqb (fst r)) ks
                then match lookup (fst r) gb with Some st => f st (snd r) | None => None end else g r) rows.
Proof.
  intro W. induction ks as [|k ks IH]; intro g; [reflexivity|].
  cbn [fold_left]. cbv zeta. cbv zeta in IH.
  assert (E : (let own := map (fun r : list Z * list fnum => key_eqb (fst r) k) rows in
      match lookup k gb with
      | Some st => assign own (map g rows) (predict s st (select own (map snd rows)))
      | None => assign own (map g rows) (map (fun _ => None) (select own rows))
      end) = map (fun r => if key_eqb (fst r) k then match lookup (fst r) gb with Some st => f st (snd r) | None => None end else g r) rows).
  { cbv zeta. destruct (lookup k gb) as [st|] eqn:Lk.
    - rewrite W, select_map, map_map.
      rewrite (assign_map (fun r : list Z * list fnum => key_eqb (fst r) k) g (fun r => f st (snd r))).
      apply map_ext. intro r. destruct (key_eqb (fst r) k) eqn:Ek; [|reflexivity].
      apply key_eqb_iff in Ek. now rewrite Ek, Lk.
    - rewrite (assign_map (fun r : list Z * list fnum => key_eqb (fst r) k) g (fun _ => None)).
      apply map_ext. intro r. destruct (key_eqb (fst r) k) eqn:Ek; [|reflexivity].
      apply key_eqb_iff in Ek. now rewrite Ek, Lk. }
  cbv zeta in E. rewrite E, IH. apply map_ext. intro r. cbn [existsb].
  destruct (key_eqb (fst r) k) eqn:Ek; cbn [orb]; [|reflexivity].
  destruct (existsb (key_eqb (fst r)) ks); reflexivity.
Qed.

Lemma filter_filter {A} (p q : A -> bool) l : filter p (filter q l) = filter (fun x => q x && p x) l.
Proof.
  induction l as [|x l IH]; cbn; [reflexivity|].
  destruct (q x); cbn; [|exact IH]. destruct (p x); cbn; now rewrite IH.
Qed.

Lemma kept_key drop X r key : g_key r = key ->
  kept drop X r = negb drop || negb (Qle_bool (weight_of_group key X) 0).
Proof.
  intros <-. unfold kept. f_equal. f_equal.
  apply eq_true_iff_eq. rewrite !Qle_bool_iff. now rewrite group_weight_spec.
Qed.

Lemma group_result drop s f X y rows : length X = length y -> rowwise s f ->
  group_by_predict s (group_by_fit drop s X y) rows =
  map (fun r => if negb drop || negb (Qle_bool (weight_of_group (fst r) X) 0)
                then part_result s f g_row (in_group (fst r)) X y (snd r) else None) rows.
Proof.
  intros L W. unfold group_by_predict. rewrite (group_fold s f _ rows W).
  apply map_ext_in. intros r I.
  assert (E : existsb (key_eqb (fst r)) (distinct_keys [] (map fst rows)) = true).
  { apply existsb_key_in. apply distinct_keys_in. split; [now apply in_map|intros []]. }
  rewrite E. set (key := fst r).
  unfold group_by_fit.
  set (mask := map (kept drop X) X).
  assert (LX : length (select mask X) = length (select mask y)) by (now apply select_length).
  rewrite (lookup_map (fun k => fit s (map g_row (select (map (fun r => key_eqb (g_key r) k) (select mask X)) (select mask X)))
                                    (select (map (fun r => key_eqb (g_key r) k) (select mask X)) (select mask y)))).
  assert (PR : part_rows (in_group key) (select mask X) (select mask y) =
               if negb drop || negb (Qle_bool (weight_of_group key X) 0) then part_rows (in_group key) X y else []).
  { unfold part_rows, mask. rewrite select_combine; [|exact L|now rewrite map_length].
    replace (map (kept drop X) X) with (map (fun p => kept drop X (fst p)) (combine X y))
      by (rewrite <- (map_map fst (kept drop X)), combine_fst by exact L; reflexivity).
    rewrite select_filter, filter_filter.
    destruct (negb drop || negb (Qle_bool (weight_of_group key X) 0)) eqn:K.
    - f_equal. apply filter_ext. intro p. destruct (in_group key (fst p)) eqn:G; [|apply andb_false_r].
      apply in_group_iff in G. rewrite (kept_key drop X (fst p) key G), K. reflexivity.
    - rewrite (filter_ext _ (fun _ => false)); [clear; induction (combine X y); cbn; auto|].
      intro p. destruct (in_group key (fst p)) eqn:G; [|apply andb_false_r].
      apply in_group_iff in G. rewrite (kept_key drop X (fst p) key G), K. reflexivity. }
  assert (PT : part_targets (in_group key) (select mask X) (select mask y) =
               if negb drop || negb (Qle_bool (weight_of_group key X) 0) then part_targets (in_group key) X y else []).
  { unfold part_targets, mask. rewrite select_combine; [|exact L|now rewrite map_length].
    replace (map (kept drop X) X) with (map (fun p => kept drop X (fst p)) (combine X y))
      by (rewrite <- (map_map fst (kept drop X)), combine_fst by exact L; reflexivity).
    rewrite select_filter, filter_filter.
    destruct (negb drop || negb (Qle_bool (weight_of_group key X) 0)) eqn:K.
    - f_equal. apply filter_ext. intro p. destruct (in_group key (fst p)) eqn:G; [|apply andb_false_r].
      apply in_group_iff in G. rewrite (kept_key drop X (fst p) key G), K. reflexivity.
    - rewrite (filter_ext _ (fun _ => false)); [clear; induction (combine X y); cbn; auto|].
      intro p. destruct (in_group key (fst p)) eqn:G; [|apply andb_false_r].
      apply in_group_iff in G. rewrite (kept_key drop X (fst p) key G), K. reflexivity. }
  rewrite (map_ext _ _ (in_group_key key) (select mask X)).
  rewrite (select_rows (in_group key) _ _ LX), (select_targets (in_group key) _ _ LX), PR, PT.
  assert (ME : existsb (key_eqb key) (distinct_keys [] (map g_key (select mask X))) = true <-> part_rows (in_group key) (select mask X) (select mask y) <> []).
  { rewrite existsb_key_in, distinct_keys_in. split.
    - intros [I1 _] P0. apply in_map_iff in I1. destruct I1 as (g & Kg & Ig).
      pose proof (proj1 (part_rows_nil (in_group key) _ _ LX) P0 g Ig) as F.
      apply not_true_iff_false in F. apply F. now apply in_group_iff.
    - intro P0. split; [|intros []].
      destruct (part_rows (in_group key) (select mask X) (select mask y)) as [|g l] eqn:PE; [congruence|].
      rewrite <- (select_rows (in_group key) _ _ LX), select_filter in PE.
      assert (Ig : In g (filter (in_group key) (select mask X))) by (rewrite PE; now left).
      apply filter_In in Ig. destruct Ig as [Ig Gg]. apply in_group_iff in Gg. rewrite <- Gg. now apply in_map. }
  rewrite PR in ME.
  destruct (negb drop || negb (Qle_bool (weight_of_group key X) 0)).
  - unfold part_result. destruct (existsb (key_eqb key) (distinct_keys [] (map g_key (select mask X)))).
    + destruct (part_rows (in_group key) X y) as [|g l]; [exfalso; now apply (proj1 ME eq_refl)|reflexivity].
    + destruct (part_rows (in_group key) X y) as [|g l]; [reflexivity|].
      assert (X0 : false = true) by (apply ME; discriminate). discriminate.
  - destruct (existsb (key_eqb key) (distinct_keys [] (map g_key (select mask X)))); [|reflexivity].
    exfalso. now apply (proj1 ME eq_refl).
Qed.
