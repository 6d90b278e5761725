(** Whole trainings of the location regressor with and without a constant column. *)
From Coq Require Import ZArith QArith List Bool Arith Lia Reals Lra.
From Verif.Model Require Import Num LexBins Train Predict Link Estimators WholeFit.
From Verif.Spec Require Import LexSpec TrainSpec PredictSpec HierSpec InsampleSpec InertSpec CellSpec EstimatorSpec ConstantColumnSpec.
From Verif.Proofs Require Import TrainFacts TrainHistory LexFacts PredictFacts EstimatorFacts ImportanceFacts CentredFacts PipeMonotone HierWhole InsampleFacts CellFacts InertWhole ConstantColumn SilentTraining.
Import ListNotations.
Local Open Scope R_scope.

Section Whole.
Variables (gm : R -> R) (bppf : R -> R -> R -> R) (erfinv : R -> R) (bad : R) (prior : bool) (gs : list group)
  (cfg : settings) (rate : nat -> nat -> R) (D : list sample) (n : nat) (g : group).
Hypothesis Hg : nth_error gs n = Some g.
Variable r : list fnum.
Hypothesis Hlog : c_log cfg = false.
Hypothesis HB : binned_rows gs D.
Hypothesis HD : D <> [].
Hypothesis HW : Forall (fun s => 0 < x_w s) D.
Hypothesis Hm : g_mnl g = false \/ ~ missing_entry r.
Hypothesis Hn : forall s, In s D -> x_bins s n = r.
Notation k := LocationRegressor.
Let D' := map (row_without n) D.
Let gs' := without n gs.
Let rate' := fun it j => rate it (place n j).
Let F := bind_groups D 0 gs.
Let G := bind_groups D' 0 gs'.
Let y := map x_y D.
Let w := map x_w D.
Let calc (H : list feature) := fun (i _ : nat) p => map (estimate_value bad) (group_estimates gm bppf erfinv k H y w i p).
Let smth (hs : list group) (H : list feature) := fun (i _ : nat) p => group_smoother gm bppf erfinv bad k hs H y w i p.

Lemma bound_same j h : bind_group D' j h = bind_group D (place n j) h.
Proof. unfold bind_group, D'. rewrite map_map. reflexivity. Qed.

Lemma agree_place j h : nth_error gs (place n j) = Some h ->
  agree (calc F) (calc G) (smth gs F) (smth gs' G) (kind_calibration k F w) (kind_calibration k G w) rate rate' n (place n j) j.
Proof.
  intro H. assert (Nb : nth_error F (place n j) = Some (bind_group D (place n j) h)) by exact (nth_bind D h gs 0%nat _ H).
  assert (Hj : nth_error gs' j = Some h) by (unfold gs'; rewrite nth_without; exact H).
  assert (Nf : nth_error G j = Some (bind_group D (place n j) h)).
  { unfold G. rewrite (nth_bind D' h gs' 0%nat _ Hj). rewrite bound_same. reflexivity. }
  split; [unfold place; destruct (Nat.ltb j n) eqn:E; [apply Nat.ltb_lt in E|apply Nat.ltb_ge in E]; lia|].
  split; [|split; [|split]].
  - unfold calc, group_estimates. rewrite Nb, Nf. reflexivity.
  - unfold smth, group_smoother, group_estimates. rewrite Nb, Nf, H, Hj. reflexivity.
  - unfold kind_calibration, location_calibration. rewrite Nb, Nf. reflexivity.
  - intro it. reflexivity.
Qed.

Notation f := (bind_group D n g).
Lemma silent_dim : (1 <= f_dim f)%nat.
Proof. destruct HB as (_ & B & _). apply B. eapply nth_error_In; eauto. Qed.
Lemma silent_len : forall row, In row (f_rows f) -> length row = f_dim f.
Proof. intros row I. cbn in I. apply in_map_iff in I as (s & <- & I). destruct HB as (B & _). exact (B s n g I Hg). Qed.
Lemma silent_whole : whole_rows (f_rows f).
Proof. intros row x I X. cbn in I. apply in_map_iff in I as (s & <- & I). destruct HB as (_ & _ & B). exact (B s n x I X). Qed.
Lemma silent_row j : (j < length D)%nat -> nth_error (f_rows f) j = Some r.
Proof.
  intro J. cbn [bind_group f_rows]. rewrite nth_error_map. destruct (nth_error D j) as [s|] eqn:E; [|apply nth_error_None in E; lia].
  cbn. f_equal. apply Hn. eapply nth_error_In; eauto.
Qed.
Lemma silent_lex : exists b, f_lex f = repeat b (length D).
Proof.
  assert (Ll : length (f_lex f) = length D) by (unfold f_lex; rewrite map_length; unfold lexicographic_binnos; cbn [fst]; rewrite map_length; cbn [bind_group f_rows]; apply map_length).
  exists (nth 0 (f_lex f) 0%nat). apply nth_ext with (d := 0%nat) (d' := 0%nat); [rewrite repeat_length; exact Ll|].
  intros j J. rewrite Ll in J. rewrite (nth_error_nth _ _ _ (nth_error_repeat _ J)).
  apply (lex_same f silent_dim silent_len silent_whole j 0%nat r r (silent_row j J) (silent_row 0%nat ltac:(lia))).
  destruct (row_finite_semi_positive r) eqn:S; [left|right; split; apply semi_positive_iff; exact S].
  assert (H : holds_tuple r (map floor_of r)) by (apply whole_holds; [exact S|]; intros x Hx; exact (silent_whole r x (nth_error_In _ _ (silent_row j J)) Hx)).
  exists (map floor_of r). split; exact H.
Qed.
Lemma map_repeat_ {A B} (h : A -> B) x : forall m, map h (repeat x m) = repeat (h x) m.
Proof. induction m as [|m IH]; [reflexivity|]. cbn. rewrite IH. reflexivity. Qed.
Lemma constant_entries b (v : list R) : forall l, sumR (map2 (fun b wj => wj * nth b v 0) (repeat b (length l)) l) = nth b v 0 * sumR l.
Proof. induction l as [|x l IH]; [cbn; ring|]. cbn [length repeat map2 sumR]. rewrite IH. ring. Qed.
Lemma inert_place : inert (kind_calibration k F w) (length D) (g_hier g) n n f.
Proof.
  assert (Nb : nth_error F n = Some f) by exact (nth_bind D g gs 0%nat _ Hg).
  split; [reflexivity|]. split; [|split; reflexivity]. intros v Lv. unfold kind_calibration, location_calibration. rewrite Nb.
  destruct silent_lex as (b & L). pose proof (weights_pos D HD HW) as WP. fold w in WP.
  assert (PR : per_row (f_lex f) w) by (unfold per_row; rewrite L, repeat_length; unfold w; rewrite map_length; reflexivity).
  destruct (calibrate_zero (f_mnl f) (f_lex f) w (f_finite f) v) as (_ & Z & _); auto.
  - intros c Hc. pose proof (f_lex_bound f c silent_dim silent_len Hc). lia.
  - destruct (f_mnl f) eqn:M; [|lra]. destruct Hm as [Hm'|Hm']; [change (f_mnl f) with (g_mnl g) in M; congruence|].
    destruct (weights_left true (f_finite f) (f_lex f) D ltac:(rewrite L; apply repeat_length) HW) as (_ & P). apply Rgt_not_eq. apply P.
    assert (D0 : (0 < length D)%nat) by (destruct D; [congruence|cbn; lia]). exists 0%nat. split; [exact D0|]. right.
    assert (S : row_finite_semi_positive r = true).
    { destruct (row_finite_semi_positive r) eqn:S; [reflexivity|]. exfalso. apply Hm'. apply semi_positive_iff. exact S. }
    pose proof (proj2 (proj2 (lex_row f silent_dim silent_len silent_whole 0%nat r (silent_row 0%nat D0) S))). lia.
  - cbv zeta in Z. set (c := calibrate _ _ _) in *. rewrite L in Z |- *. assert (Lw : length D = length w) by (unfold w; rewrite map_length; reflexivity).
    rewrite Lw, constant_entries in Z. apply Rmult_integral in Z as [Z|Z]; [|lra]. unfold gather. rewrite map_repeat_, Z. reflexivity.
Qed.

Let Rl P := Rel (calc F) (calc G) (smth gs F) (smth gs' G) (kind_calibration k F w) (kind_calibration k G w) rate rate' (length D) (g_hier g) n P.

Lemma lex_rows i h : length (f_lex (bind_group D i h)) = length D.
Proof. unfold f_lex. rewrite map_length. unfold lexicographic_binnos. cbn [fst]. rewrite map_length. cbn [bind_group f_rows]. apply map_length. Qed.

Lemma rel_after P : forall rest i, (n <= i)%nat -> (forall m, nth_error gs (S i + m) = nth_error rest m) ->
  Rl P (S i) i (bind_groups D (S i) rest) (bind_groups D' i rest) (map init_fstate (bind_groups D (S i) rest)) (map init_fstate (bind_groups D' i rest)).
Proof.
  induction rest as [|h rest IH]; intros i Hi E; [constructor|]. cbn [bind_groups map]. rewrite bound_same, (place_high n i Hi).
  apply rel_keep; [|apply lex_rows|reflexivity|].
  - rewrite <- (place_high n i Hi). apply (agree_place i h). rewrite (place_high n i Hi). specialize (E 0%nat). rewrite Nat.add_0_r in E. exact E.
  - apply IH; [lia|]. intro m. specialize (E (S m)). cbn [nth_error] in E. rewrite <- E. f_equal. lia.
Qed.
Lemma rel_before P : (forall s, s = init_fstate (bind_group D n g) -> quiet (length D) P (bind_group D n g) s) ->
  forall rest i, (i <= n)%nat -> (forall m, nth_error gs (i + m) = nth_error rest m) ->
  Rl P i i (bind_groups D i rest) (bind_groups D' i (without (n - i) rest)) (map init_fstate (bind_groups D i rest)) (map init_fstate (bind_groups D' i (without (n - i) rest))).
Proof.
  intro Hq. induction rest as [|h rest IH]; intros i Hi E; [apply rel_nil|].
  destruct (Nat.eq_dec i n) as [En|En].
  - subst i. rewrite Nat.sub_diag. cbn [without]. assert (h = g) as ->.
    { specialize (E 0%nat). rewrite Nat.add_0_r in E. cbn in E. congruence. }
    cbn [bind_groups map]. apply rel_drop; [exact inert_place|apply Hq; reflexivity|]. apply rel_after; [lia|].
    intro m. specialize (E (S m)). cbn [nth_error] in E. rewrite <- E. f_equal. lia.
  - replace (n - i)%nat with (S (n - S i)) by lia. cbn [without bind_groups map]. rewrite bound_same, (place_low n i) by lia.
    apply rel_keep; [|apply lex_rows|reflexivity|].
    + rewrite <- (place_low n i) at 1 by lia. apply (agree_place i h). rewrite place_low by lia. specialize (E 0%nat). rewrite Nat.add_0_r in E. exact E.
    + apply IH; [lia|]. intro m. specialize (E (S m)). cbn [nth_error] in E. rewrite <- E. f_equal. lia.
Qed.
Lemma rel_start : Rl (open_at cfg (g_hier g) 0) 0 0 F G (map init_fstate F) (map init_fstate G).
Proof.
  unfold F, G, gs'. pose proof (rel_before (open_at cfg (g_hier g) 0)) as H.
  assert (Q : forall s, s = init_fstate (bind_group D n g) -> quiet (length D) (open_at cfg (g_hier g) 0) (bind_group D n g) s).
  { intros s ->. split; [|right; split; [reflexivity|left; reflexivity]].
    destruct silent_lex as (b & L). rewrite L. unfold gather. rewrite map_repeat_. f_equal. cbn [init_fstate s_factors]. unfold zeros. apply nth_repeat. }
  pose proof (H Q gs 0%nat ltac:(lia) ltac:(reflexivity)) as X. rewrite Nat.sub_0_r in X. exact X.
Qed.

Lemma stored P : forall i j F0 G0 sl tl, Rl P i j F0 G0 sl tl ->
  ((i <= n)%nat -> map2 store G0 tl = without (n - i) (map2 store F0 sl)) /\ ((n < i)%nat -> map2 store G0 tl = map2 store F0 sl).
Proof.
  intros i j F0 G0 sl tl A. unfold Rl in A. induction A as [i j|i j f F0 G0 s sl tl A Lf X A' (I1 & I2)|i j f F0 G0 s sl tl I Q A' (I1 & I2)].
  - split; [destruct (n - i)%nat; reflexivity|reflexivity].
  - split; intro Hi; cbn [map2].
    + destruct A as (A & _). replace (n - i)%nat with (S (n - S i)) by lia. cbn [without]. rewrite I1 by lia. reflexivity.
    + rewrite I2 by lia. reflexivity.
  - destruct I as (_ & _ & _ & Ei). split; intro Hi; [|lia]. subst i. rewrite Nat.sub_diag. cbn [map2 without]. apply I2. lia.
Qed.
Lemma rows_y : map x_y D' = y. Proof. unfold D'. rewrite map_map. reflexivity. Qed.
Lemma rows_w : map x_w D' = w. Proof. unfold D'. rewrite map_map. reflexivity. Qed.
Lemma rows_prior : map x_prior D' = map x_prior D. Proof. unfold D'. rewrite map_map. reflexivity. Qed.
Lemma rows_linked X : linked_column k prior (map (row_without n) X) = linked_column k prior X.
Proof. unfold linked_column. rewrite map_map. reflexivity. Qed.
Lemma rows_length : length D' = length D. Proof. apply map_length. Qed.

Definition starting (scale offset : R) : preds :=
  {| p_factors := prior_predictions scale offset (linked_column k prior D) (length D); p_exponents := zeros (length D) |}.
Notation lss := (fun p : preds => kind_loss bad k y w (p_factors p)).
Notation hist1 s o := (TrainSpec.reached cfg F (calc F) (smth gs F) (kind_calibration k F w) rate lss (starting s o)).
Notation hist2 s o := (TrainSpec.reached cfg G (calc G) (smth gs' G) (kind_calibration k G w) rate' lss (starting s o)).

Lemma fit1 fuel : whole_fit gm bppf erfinv bad k prior gs cfg rate fuel D =
  match kind_scale k y w with
  | None => NoBaseline
  | Some scale =>
      let offset := kind_offset k scale (map x_prior D) w in
      match fit_main cfg F (calc F) (smth gs F) (kind_calibration k F w) rate lss fuel (starting scale offset) with
      | None => MoreIterations
      | Some (Raise e) => Failed e
      | Some (Ok st) => Trained {| o_scale := scale; o_offset := offset; o_groups := map2 store F (t_feats st); o_iterations := t_iter st; o_loss := t_loss st |}
      end
  end.
Proof. reflexivity. Qed.
Lemma fit2 fuel : whole_fit gm bppf erfinv bad k prior gs' cfg rate' fuel D' =
  match kind_scale k y w with
  | None => NoBaseline
  | Some scale =>
      let offset := kind_offset k scale (map x_prior D) w in
      match fit_main cfg G (calc G) (smth gs' G) (kind_calibration k G w) rate' lss fuel (starting scale offset) with
      | None => MoreIterations
      | Some (Raise e) => Failed e
      | Some (Ok st) => Trained {| o_scale := scale; o_offset := offset; o_groups := map2 store G (t_feats st); o_iterations := t_iter st; o_loss := t_loss st |}
      end
  end.
Proof. unfold whole_fit, train. cbv zeta. rewrite rows_y, rows_w, rows_prior, rows_length. unfold D' at 3 5. rewrite rows_linked. reflexivity. Qed.

Lemma starting_length scale offset : length (p_factors (starting scale offset)) = length D.
Proof.
  unfold starting, prior_predictions, linked_column. cbn [p_factors]. destruct prior; [rewrite map_length; unfold linked_prior; rewrite !map_length; reflexivity|apply repeat_length].
Qed.

Lemma states_same scale offset st tt :
  alike cfg (calc F) (calc G) (smth gs F) (smth gs' G) (kind_calibration k F w) (kind_calibration k G w) rate rate' (length D) (g_hier g) n F G st tt ->
  t_iter tt = t_iter st ->
  {| o_scale := scale; o_offset := offset; o_groups := map2 store G (t_feats tt); o_iterations := t_iter tt; o_loss := t_loss tt |} =
  model_without n {| o_scale := scale; o_offset := offset; o_groups := map2 store F (t_feats st); o_iterations := t_iter st; o_loss := t_loss st |}.
Proof.
  intros ((P1 & P2 & P3 & _) & Rs & L) I. unfold model_without. cbn [o_scale o_offset o_groups o_iterations o_loss].
  destruct (stored _ _ _ _ _ _ _ Rs) as (S1 & _). specialize (S1 (Nat.le_0_l n)). rewrite Nat.sub_0_r in S1. rewrite S1, P3, I. reflexivity.
Qed.

Lemma history_calm scale tt : kind_scale k y w = Some scale -> never_diverging gm bppf erfinv bad k prior gs' cfg rate' D' ->
  hist2 scale (kind_offset k scale (map x_prior D) w) tt -> t_isdiv tt = false.
Proof.
  intros Es S1 H. apply (S1 scale (kind_offset k scale (map x_prior D) w) tt); [rewrite rows_y, rows_w; exact Es|rewrite rows_prior, rows_w; reflexivity|].
  unfold training_state. cbv zeta. rewrite rows_y, rows_w, rows_length. change (linked_column k prior D') with (linked_column k prior (map (row_without n) D)). rewrite rows_linked. exact H.
Qed.
(** With any stopping criteria, the same number of passes gives the same estimator. *)
Theorem constant_passes fuel fuel' t t' :
  whole_fit gm bppf erfinv bad k prior gs cfg rate fuel D = Trained t ->
  whole_fit gm bppf erfinv bad k prior gs' cfg rate' fuel' D' = Trained t' ->
  o_iterations t' = o_iterations t -> t' = model_without n t.
Proof.
  rewrite fit1, fit2. destruct (kind_scale k y w) as [scale|] eqn:Es; [|discriminate]. cbv zeta.
  destruct (fit_main cfg F _ _ _ _ _ fuel _) as [[st|e]|] eqn:E1; try discriminate.
  destruct (fit_main cfg G _ _ _ _ _ fuel' _) as [[tt|e]|] eqn:E2; try discriminate.
  intros A B. injection A as <-. injection B as <-. cbn [o_iterations]. intro I.
  destruct (fit_reached _ _ _ _ _ _ _ _ _ _ E1) as (H1 & _). destruct (fit_reached _ _ _ _ _ _ _ _ _ _ E2) as (H2 & _).
  apply states_same; [|exact I].
  exact (same_pass_alike cfg Hlog _ _ _ _ _ _ _ _ _ (length D) (g_hier g) n F G (starting _ _) rel_start (starting_length _ _) st H1 tt H2 I).
Qed.

Theorem constant_training fuel : c_minfactor cfg < 0 -> gs' <> [] ->
  (c_hier cfg = false \/ g_hier g = true \/ never_diverging gm bppf erfinv bad k prior gs' cfg rate' D') ->
  whole_fit gm bppf erfinv bad k prior gs' cfg rate' fuel D' = result_without n (whole_fit gm bppf erfinv bad k prior gs cfg rate fuel D).
Proof.
  intros Hmin Hne Hh. rewrite fit1, fit2. destruct (kind_scale k y w) as [scale|] eqn:Es; [|reflexivity]. cbv zeta.
  assert (HG : G <> []) by (unfold G; destruct gs'; [contradiction|discriminate]).
  assert (Hz : c_hier cfg = false \/ g_hier g = true \/ forall tt, hist2 scale (kind_offset k scale (map x_prior D) w) tt -> t_isdiv tt = false).
  { destruct Hh as [Hh|[Hh|Hh]]; [left; exact Hh|right; left; exact Hh|right; right]. intros tt. exact (history_calm scale tt Es Hh). }
  pose proof (fit_alike cfg Hlog _ _ _ _ _ _ _ _ _ (length D) (g_hier g) n F G (starting scale (kind_offset k scale (map x_prior D) w)) rel_start (starting_length _ _) Hmin Hz HG fuel) as A.
  destruct (fit_main cfg F _ _ _ _ _ fuel _) as [[st|e]|] eqn:E1; destruct (fit_main cfg G _ _ _ _ _ fuel _) as [[tt|e']|] eqn:E2; try contradiction; try reflexivity; [|cbn; congruence].
  destruct (fit_reached _ _ _ _ _ _ _ _ _ _ E1) as (H1 & _). destruct (fit_reached _ _ _ _ _ _ _ _ _ _ E2) as (H2 & _).
  cbn [result_without]. f_equal. apply states_same; [|exact A].
  exact (same_pass_alike cfg Hlog _ _ _ _ _ _ _ _ _ (length D) (g_hier g) n F G (starting _ _) rel_start (starting_length _ _) st H1 tt H2 A).
Qed.
End Whole.
