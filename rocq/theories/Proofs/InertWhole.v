(** Whole trainings with a feature group without any value in the training data. *)
From Coq Require Import ZArith QArith List Bool Arith Lia Reals Lra.
From Verif.Model Require Import Num LexBins Train Predict Link Estimators WholeFit.
From Verif.Spec Require Import LexSpec TrainSpec HierSpec InertSpec.
From Verif.Proofs Require Import TrainFacts TrainHistory LexFacts HierWhole InsampleFacts InertFacts.
Import ListNotations.
Local Open Scope R_scope.

Lemma no_rows rows : (forall r, In r rows -> missing_entry r) -> filter row_finite_semi_positive rows = [].
Proof.
  induction rows as [|r rows IH]; intro H; [reflexivity|]. cbn [filter].
  rewrite (proj2 (semi_positive_iff r) (H r (or_introl eq_refl))). apply IH. intros x Hx. apply H. right. exact Hx.
Qed.
Lemma prod_zeros M : (1 <= M)%nat -> prodZ (repeat 0%Z M) = 0%Z.
Proof. destruct M; [lia|]. reflexivity. Qed.
Lemma invalid_zeros M r : (1 <= M)%nat -> missing_entry r -> row_valid (repeat 0%Z M) r = false.
Proof.
  intros HM (x & Hx & _). destruct r as [|y r]; [contradiction|]. destruct M; [lia|]. unfold row_valid. cbn [repeat in_bins].
  assert (E : nonneg y && flt y (Fin (inject_Z 0)) = false).
  { unfold nonneg. destruct y as [q| | |]; try reflexivity. cbn. destruct (Qle_bool 0 q) eqn:E; [|reflexivity]. cbn.
    apply Qle_bool_iff in E. rewrite (proj2 (Qle_bool_iff _ _)); [reflexivity|exact E]. }
  rewrite E. apply andb_false_r.
Qed.

Lemma empty_feature f : (1 <= f_dim f)%nat -> (forall r, In r (f_rows f) -> missing_entry r) ->
  f_finite f = 0%nat /\ f_lex f = repeat 0%nat (length (f_rows f)).
Proof.
  intros HM H. assert (Nb : f_nbins f = repeat 0%Z (f_dim f)).
  { unfold f_nbins, lexicographic_binnos, data_n_bins. cbn [snd]. rewrite no_rows by exact H. reflexivity. }
  split; [unfold f_finite; rewrite Nb, prod_zeros by exact HM; reflexivity|].
  unfold f_lex, lexicographic_binnos. cbn [fst]. unfold data_n_bins. rewrite no_rows by exact H.
  rewrite map_map. rewrite prod_zeros by exact HM.
  assert (Z : forall r, In r (f_rows f) -> Z.to_nat (if row_valid (repeat 0%Z (f_dim f)) r then lex_value (repeat 0%Z (f_dim f)) r else if existsb (row_valid (repeat 0%Z (f_dim f))) (f_rows f) then 0%Z else 0%Z) = 0%nat).
  { intros r Hr. rewrite invalid_zeros by auto. destruct (existsb _ _); reflexivity. }
  revert Z. generalize (existsb (row_valid (repeat 0%Z (f_dim f))) (f_rows f)). intro b. generalize (f_rows f). clear.
  induction l as [|r l IH]; intro Z; [reflexivity|]. cbn [map length repeat]. rewrite (Z r (or_introl eq_refl)). f_equal. apply IH. intros x Hx. apply Z. right. exact Hx.
Qed.

Lemma place_low n j : (j < n)%nat -> place n j = j.
Proof. intro H. unfold place. rewrite (proj2 (Nat.ltb_lt _ _) H). reflexivity. Qed.
Lemma place_high n j : (n <= j)%nat -> place n j = S j.
Proof. intro H. unfold place. rewrite (proj2 (Nat.ltb_ge _ _) H). reflexivity. Qed.
Lemma nth_without {A} : forall (l : list A) n j, nth_error (without n l) j = nth_error l (place n j).
Proof.
  induction l as [|x l IH]; intros n j; [destruct n; unfold place; destruct (Nat.ltb _ _); destruct j; reflexivity|].
  destruct n as [|n]; [rewrite place_high by lia; reflexivity|]. destruct j as [|j]; [rewrite place_low by lia; reflexivity|].
  cbn [without nth_error]. rewrite IH. unfold place. change (Nat.ltb (S j) (S n)) with (Nat.ltb j n). destruct (Nat.ltb j n); reflexivity.
Qed.

(** ** Predictions *)
Lemma silent_factors m rows : m_smoother m = false -> m_missing m = 0 -> predict_factors m rows = repeat 0 (length rows).
Proof.
  intros A B. unfold predict_factors. rewrite A, B, andb_false_r. induction rows as [|r rows IH]; [reflexivity|]. cbn [map length repeat].
  f_equal; [destruct (row_finite_semi_positive r); reflexivity|].
  rewrite <- IH. apply map_ext. reflexivity.
Qed.
Lemma shape_kept X m i p : m_ext m = false -> length (p_factors p) = length X ->
  length (p_factors (add_preds (m_ext m) p (predict_factors m (map (fun x => x i) (map x_bins X))))) = length X.
Proof.
  intros E L. rewrite E. unfold add_preds. cbn [p_factors]. unfold vadd. rewrite map2_length; [exact L|].
  unfold predict_factors. rewrite !map_length. exact L.
Qed.
Lemma read_placed n X i j : place n j = i -> map (fun x => x i) (map x_bins X) = map (fun x => x j) (map x_bins (map (row_without n) X)).
Proof. intros <-. rewrite !map_map. reflexivity. Qed.
Lemma predict_after n X : forall ms i p, (n <= i)%nat ->
  predict_from (S i) ms p (map x_bins X) = predict_from i ms p (map x_bins (map (row_without n) X)).
Proof.
  induction ms as [|m ms IH]; intros i p Hi; [reflexivity|]. cbn [predict_from]. rewrite (read_placed n X (S i) i) by (apply place_high; exact Hi).
  apply IH. lia.
Qed.
Lemma predict_before n X : forall ms i p, (i <= n)%nat -> length (p_factors p) = length X ->
  (forall m, nth_error ms (n - i) = Some m -> m_smoother m = false /\ m_missing m = 0) -> Forall (fun m => m_ext m = false) ms ->
  predict_from i ms p (map x_bins X) = predict_from i (without (n - i) ms) p (map x_bins (map (row_without n) X)).
Proof.
  induction ms as [|m ms IH]; intros i p Hi L Hm He; [reflexivity|]. apply Forall_cons_iff in He as (He & Hr).
  destruct (Nat.eq_dec i n) as [En|En].
  - subst i. rewrite Nat.sub_diag in *. cbn [without predict_from]. destruct (Hm m eq_refl) as (B & C).
    rewrite He, silent_factors by assumption. unfold add_preds. rewrite !map_length, vadd_zeros by exact L.
    replace {| p_factors := p_factors p; p_exponents := p_exponents p |} with p by (destruct p; reflexivity). apply predict_after. lia.
  - replace (n - i)%nat with (S (n - S i)) in * by lia. cbn [without predict_from].
    rewrite <- (read_placed n X i i) by (apply place_low; lia). apply IH; [lia|apply shape_kept; assumption|exact Hm|exact Hr].
Qed.

Section Whole.
Variables (gm : R -> R) (bppf : R -> R -> R -> R) (erfinv : R -> R) (bad : R) (k : kind) (prior : bool) (gs : list group)
  (cfg : settings) (rate : nat -> nat -> R) (D : list sample) (n : nat) (g : group).
Hypothesis Hg : nth_error gs n = Some g.
Hypothesis Hm : g_mnl g = true.
Hypothesis Hd : (1 <= g_dim g)%nat.
Hypothesis Hn : no_values n D.
Let D' := map (row_without n) D.
Let gs' := without n gs.
Let rate' := fun it j => rate it (place n j).
Let F := bind_groups D 0 gs.
Let G := bind_groups D' 0 gs'.
Let y := map x_y D.
Let w := map x_w D.
Let calc (H : list feature) := fun (i _ : nat) p => map (estimate_value bad) (group_estimates gm bppf erfinv k H y w i p).
Let smth (hs : list group) (H : list feature) := fun (i _ : nat) p => group_smoother gm bppf erfinv bad k hs H y w i p.

Lemma bound_same j h : bind_group D' j h = bind_group D (place n j) h.
Proof. unfold bind_group, D'. rewrite map_map. reflexivity. Qed.

Lemma agree_place j h : nth_error gs (place n j) = Some h ->
  agree (calc F) (calc G) (smth gs F) (smth gs' G) (kind_calibration k F w) (kind_calibration k G w) rate rate' n (place n j) j.
Proof.
  intro H. assert (Nb : nth_error F (place n j) = Some (bind_group D (place n j) h)) by exact (nth_bind D h gs 0%nat _ H).
  assert (Hj : nth_error gs' j = Some h) by (unfold gs'; rewrite nth_without; exact H).
  assert (Nf : nth_error G j = Some (bind_group D (place n j) h)).
  { unfold G. rewrite (nth_bind D' h gs' 0%nat _ Hj). rewrite bound_same. reflexivity. }
  split; [unfold place; destruct (Nat.ltb j n) eqn:E; [apply Nat.ltb_lt in E|apply Nat.ltb_ge in E]; lia|].
  split; [|split; [|split]].
  - unfold calc, group_estimates. rewrite Nb, Nf. reflexivity.
  - unfold smth, group_smoother, group_estimates. rewrite Nb, Nf, H, Hj. reflexivity.
  - unfold kind_calibration. destruct k; try reflexivity. unfold location_calibration. rewrite Nb, Nf. reflexivity.
  - intro it. reflexivity.
Qed.

Lemma inert_place : inert (kind_calibration k F w) (length D) (g_hier g) n n (bind_group D n g).
Proof.
  assert (Nb : nth_error F n = Some (bind_group D n g)) by exact (nth_bind D g gs 0%nat _ Hg).
  destruct (empty_feature (bind_group D n g) Hd) as (E1 & E2).
  { cbn [bind_group f_rows]. intros r Hr. apply in_map_iff in Hr as (s & <- & Hs). exact (Hn s Hs). }
  split; [exact Hm|]. split; [reflexivity|]. split; [exact E1|]. split; [rewrite E2; cbn [bind_group f_rows]; rewrite map_length; reflexivity|].
  split; [|split; reflexivity].
  unfold kind_calibration. destruct k; try reflexivity. unfold location_calibration. rewrite Nb. unfold calibrate. cbn [bind_group f_mnl]. rewrite Hm. reflexivity.
Qed.

Let Rl P := Rel (calc F) (calc G) (smth gs F) (smth gs' G) (kind_calibration k F w) (kind_calibration k G w) rate rate' (length D) (g_hier g) n P.

Lemma lex_rows i h : length (f_lex (bind_group D i h)) = length D.
Proof. unfold f_lex. rewrite map_length. unfold lexicographic_binnos. cbn [fst]. rewrite map_length. cbn [bind_group f_rows]. apply map_length. Qed.

Lemma rel_after P : forall rest i, (n <= i)%nat -> (forall m, nth_error gs (S i + m) = nth_error rest m) ->
  Rl P (S i) i (bind_groups D (S i) rest) (bind_groups D' i rest) (map init_fstate (bind_groups D (S i) rest)) (map init_fstate (bind_groups D' i rest)).
Proof.
  induction rest as [|h rest IH]; intros i Hi E; [constructor|]. cbn [bind_groups map]. rewrite bound_same, (place_high n i Hi).
  apply rel_keep; [|apply lex_rows|reflexivity|].
  - rewrite <- (place_high n i Hi). apply (agree_place i h). rewrite (place_high n i Hi). specialize (E 0%nat). rewrite Nat.add_0_r in E. exact E.
  - apply IH; [lia|]. intro m. specialize (E (S m)). cbn [nth_error] in E. rewrite <- E. f_equal. lia.
Qed.
Lemma rel_before P : (forall s, s = init_fstate (bind_group D n g) -> quiet P s) ->
  forall rest i, (i <= n)%nat -> (forall m, nth_error gs (i + m) = nth_error rest m) ->
  Rl P i i (bind_groups D i rest) (bind_groups D' i (without (n - i) rest)) (map init_fstate (bind_groups D i rest)) (map init_fstate (bind_groups D' i (without (n - i) rest))).
Proof.
  intro Hq. induction rest as [|h rest IH]; intros i Hi E; [apply rel_nil|].
  destruct (Nat.eq_dec i n) as [En|En].
  - subst i. rewrite Nat.sub_diag. cbn [without]. assert (h = g) as ->.
    { specialize (E 0%nat). rewrite Nat.add_0_r in E. cbn in E. congruence. }
    cbn [bind_groups map]. apply rel_drop; [exact inert_place|apply Hq; reflexivity|]. apply rel_after; [lia|].
    intro m. specialize (E (S m)). cbn [nth_error] in E. rewrite <- E. f_equal. lia.
  - replace (n - i)%nat with (S (n - S i)) by lia. cbn [without bind_groups map]. rewrite bound_same, (place_low n i) by lia.
    apply rel_keep; [|apply lex_rows|reflexivity|].
    + rewrite <- (place_low n i) at 1 by lia. apply (agree_place i h). rewrite place_low by lia. specialize (E 0%nat). rewrite Nat.add_0_r in E. exact E.
    + apply IH; [lia|]. intro m. specialize (E (S m)). cbn [nth_error] in E. rewrite <- E. f_equal. lia.
Qed.
Lemma rel_start : Rl (open_at cfg (g_hier g) 0) 0 0 F G (map init_fstate F) (map init_fstate G).
Proof.
  unfold F, G, gs'. pose proof (rel_before (open_at cfg (g_hier g) 0)) as H.
  assert (Q : forall s, s = init_fstate (bind_group D n g) -> quiet (open_at cfg (g_hier g) 0) s).
  { intros s ->. split; [|right; split; [reflexivity|left; reflexivity]].
    destruct (inert_place) as (_ & _ & E & _). unfold init_fstate. cbn [s_factors]. rewrite E. reflexivity. }
  pose proof (H Q gs 0%nat ltac:(lia) ltac:(reflexivity)) as X. rewrite Nat.sub_0_r in X. exact X.
Qed.

Lemma stored P : forall i j F0 G0 sl tl, Rl P i j F0 G0 sl tl ->
  ((i <= n)%nat -> map2 store G0 tl = without (n - i) (map2 store F0 sl)) /\ ((n < i)%nat -> map2 store G0 tl = map2 store F0 sl).
Proof.
  intros i j F0 G0 sl tl A. unfold Rl in A. induction A as [i j|i j f F0 G0 s sl tl A Lf X A' (I1 & I2)|i j f F0 G0 s sl tl I Q A' (I1 & I2)].
  - split; [destruct (n - i)%nat; reflexivity|reflexivity].
  - split; intro Hi; cbn [map2].
    + destruct A as (A & _). replace (n - i)%nat with (S (n - S i)) by lia. cbn [without]. rewrite I1 by lia. reflexivity.
    + rewrite I2 by lia. reflexivity.
  - destruct I as (_ & _ & _ & _ & _ & _ & Ei). split; intro Hi; [|lia]. subst i. rewrite Nat.sub_diag. cbn [map2 without]. apply I2. lia.
Qed.
Lemma silent P : forall i j F0 G0 sl tl, Rl P i j F0 G0 sl tl ->
  (i <= n)%nat -> forall m, nth_error (map2 store F0 sl) (n - i) = Some m -> m_ext m = false /\ m_smoother m = false /\ m_missing m = 0.
Proof.
  intros i j F0 G0 sl tl A. unfold Rl in A. induction A as [i j|i j f F0 G0 s sl tl A Lf X A' IH|i j f F0 G0 s sl tl I Q A' IH]; intros Hi m E.
  - cbn in E. destruct (n - i)%nat; discriminate.
  - destruct A as (A & _). replace (n - i)%nat with (S (n - S i)) in E by lia. cbn [map2 nth_error] in E. apply IH; [lia|exact E].
  - destruct I as (_ & X & Fn & _ & _ & _ & Ei). subst i. rewrite Nat.sub_diag in E. cbn in E. injection E as <-. unfold store. cbn [m_ext m_smoother m_missing].
    rewrite Fn. split; [exact X|]. split; [reflexivity|]. destruct Q as (_ & [->|(-> & _)]); reflexivity.
Qed.


Lemma rows_y : map x_y D' = y. Proof. unfold D'. rewrite map_map. reflexivity. Qed.
Lemma rows_w : map x_w D' = w. Proof. unfold D'. rewrite map_map. reflexivity. Qed.
Lemma rows_prior : map x_prior D' = map x_prior D. Proof. unfold D'. rewrite map_map. reflexivity. Qed.
Lemma rows_linked X : linked_column k prior (map (row_without n) X) = linked_column k prior X.
Proof. unfold linked_column. rewrite map_map. reflexivity. Qed.
Lemma rows_length : length D' = length D. Proof. apply map_length. Qed.

Definition starting (scale offset : R) : preds :=
  {| p_factors := prior_predictions scale offset (linked_column k prior D) (length D); p_exponents := zeros (length D) |}.
Notation lss := (fun p : preds => kind_loss bad k y w (p_factors p)).
Notation hist1 s o := (reached cfg F (calc F) (smth gs F) (kind_calibration k F w) rate lss (starting s o)).
Notation hist2 s o := (reached cfg G (calc G) (smth gs' G) (kind_calibration k G w) rate' lss (starting s o)).

Lemma fit1 fuel : whole_fit gm bppf erfinv bad k prior gs cfg rate fuel D =
  match kind_scale k y w with
  | None => NoBaseline
  | Some scale =>
      let offset := kind_offset k scale (map x_prior D) w in
      match fit_main cfg F (calc F) (smth gs F) (kind_calibration k F w) rate lss fuel (starting scale offset) with
      | None => MoreIterations
      | Some (Raise e) => Failed e
      | Some (Ok st) => Trained {| o_scale := scale; o_offset := offset; o_groups := map2 store F (t_feats st); o_iterations := t_iter st; o_loss := t_loss st |}
      end
  end.
Proof. reflexivity. Qed.
Lemma fit2 fuel : whole_fit gm bppf erfinv bad k prior gs' cfg rate' fuel D' =
  match kind_scale k y w with
  | None => NoBaseline
  | Some scale =>
      let offset := kind_offset k scale (map x_prior D) w in
      match fit_main cfg G (calc G) (smth gs' G) (kind_calibration k G w) rate' lss fuel (starting scale offset) with
      | None => MoreIterations
      | Some (Raise e) => Failed e
      | Some (Ok st) => Trained {| o_scale := scale; o_offset := offset; o_groups := map2 store G (t_feats st); o_iterations := t_iter st; o_loss := t_loss st |}
      end
  end.
Proof. unfold whole_fit, train. cbv zeta. rewrite rows_y, rows_w, rows_prior, rows_length. unfold D' at 3 5. rewrite rows_linked. reflexivity. Qed.

Lemma starting_length scale offset : length (p_factors (starting scale offset)) = length D.
Proof.
  unfold starting, prior_predictions, linked_column. cbn [p_factors]. destruct prior; [rewrite map_length; unfold linked_prior; rewrite !map_length; reflexivity|apply repeat_length].
Qed.

Lemma all_plain H : forall sl, Forall (fun m => m_ext m = false) (map2 store (bind_groups D H gs) sl).
Proof. revert H. generalize gs. intro l. induction l as [|h l IH]; intros i [|s sl]; cbn [bind_groups map2]; constructor; [reflexivity|apply IH]. Qed.

Lemma states_same scale offset st tt :
  alike cfg (calc F) (calc G) (smth gs F) (smth gs' G) (kind_calibration k F w) (kind_calibration k G w) rate rate' (length D) (g_hier g) n F G st tt ->
  t_iter tt = t_iter st ->
  same_but n k prior
    {| o_scale := scale; o_offset := offset; o_groups := map2 store F (t_feats st); o_iterations := t_iter st; o_loss := t_loss st |}
    {| o_scale := scale; o_offset := offset; o_groups := map2 store G (t_feats tt); o_iterations := t_iter tt; o_loss := t_loss tt |}.
Proof.
  intros ((P1 & P2 & P3 & _) & Rs & L) I. unfold same_but. cbn [o_scale o_offset o_groups o_iterations o_loss].
  destruct (stored _ _ _ _ _ _ _ Rs) as (S1 & _). specialize (S1 (Nat.le_0_l n)). rewrite Nat.sub_0_r in S1.
  repeat (split; [first [reflexivity|assumption]|]). intro X. unfold whole_predict, cb_predict. cbn [o_scale o_offset o_groups].
  rewrite rows_linked. do 2 f_equal. unfold predict_extended. rewrite S1. rewrite !map_length. symmetry.
  rewrite <- (Nat.sub_0_r n) at 1. apply predict_before; [lia| |intros m Em; apply (silent _ _ _ _ _ _ _ Rs (Nat.le_0_l n) m Em)|apply all_plain].
  cbn [p_factors]. unfold prior_predictions, linked_column. destruct prior; [rewrite map_length; unfold linked_prior; rewrite !map_length; reflexivity|apply repeat_length].
Qed.

Hypothesis Hsafe : c_log cfg && c_aggregate cfg = false \/ never_diverging gm bppf erfinv bad k prior gs' cfg rate' D'.

Lemma history_calm scale tt : kind_scale k y w = Some scale -> never_diverging gm bppf erfinv bad k prior gs' cfg rate' D' ->
  hist2 scale (kind_offset k scale (map x_prior D) w) tt -> t_isdiv tt = false.
Proof.
  intros Es S1 H. apply (S1 scale (kind_offset k scale (map x_prior D) w) tt); [rewrite rows_y, rows_w; exact Es|rewrite rows_prior, rows_w; reflexivity|].
  unfold training_state. cbv zeta. rewrite rows_y, rows_w, rows_length. change (linked_column k prior D') with (linked_column k prior (map (row_without n) D)). rewrite rows_linked. exact H.
Qed.
Lemma history_safe scale tt : kind_scale k y w = Some scale -> hist2 scale (kind_offset k scale (map x_prior D) w) tt -> safe_at cfg tt.
Proof. intros Es H. destruct Hsafe as [S1|S1]; [left; exact S1|right]. exact (history_calm scale tt Es S1 H). Qed.

Theorem same_passes fuel fuel' t t' :
  whole_fit gm bppf erfinv bad k prior gs cfg rate fuel D = Trained t ->
  whole_fit gm bppf erfinv bad k prior gs' cfg rate' fuel' D' = Trained t' ->
  o_iterations t' = o_iterations t -> same_but n k prior t t'.
Proof.
  rewrite fit1, fit2. destruct (kind_scale k y w) as [scale|] eqn:Es; [|discriminate]. cbv zeta.
  destruct (fit_main cfg F _ _ _ _ _ fuel _) as [[st|e]|] eqn:E1; try discriminate.
  destruct (fit_main cfg G _ _ _ _ _ fuel' _) as [[tt|e]|] eqn:E2; try discriminate.
  intros A B. injection A as <-. injection B as <-. cbn [o_iterations]. intro I.
  destruct (fit_reached _ _ _ _ _ _ _ _ _ _ E1) as (H1 & _). destruct (fit_reached _ _ _ _ _ _ _ _ _ _ E2) as (H2 & _).
  apply states_same; [|exact I].
  exact (same_pass_alike cfg _ _ _ _ _ _ _ _ _ (length D) (g_hier g) n F G (starting _ _) rel_start (starting_length _ _) (fun s => history_safe scale s Es) st H1 tt H2 I).
Qed.

Theorem same_training fuel : c_minfactor cfg < 0 -> gs' <> [] ->
  (c_hier cfg = false \/ g_hier g = true \/ never_diverging gm bppf erfinv bad k prior gs' cfg rate' D') ->
  same_result n k prior (whole_fit gm bppf erfinv bad k prior gs cfg rate fuel D) (whole_fit gm bppf erfinv bad k prior gs' cfg rate' fuel D').
Proof.
  intros Hmin Hne Hh. rewrite fit1, fit2. destruct (kind_scale k y w) as [scale|] eqn:Es; [|exact I]. cbv zeta.
  assert (HG : G <> []) by (unfold G; destruct gs'; [contradiction|discriminate]).
  assert (Hz : c_hier cfg = false \/ g_hier g = true \/ forall tt, hist2 scale (kind_offset k scale (map x_prior D) w) tt -> t_isdiv tt = false).
  { destruct Hh as [Hh|[Hh|Hh]]; [left; exact Hh|right; left; exact Hh|right; right]. intros tt. exact (history_calm scale tt Es Hh). }
  pose proof (fit_alike cfg _ _ _ _ _ _ _ _ _ (length D) (g_hier g) n F G (starting scale (kind_offset k scale (map x_prior D) w)) rel_start (starting_length _ _) (fun s => history_safe scale s Es) Hmin Hz HG fuel) as A.
  destruct (fit_main cfg F _ _ _ _ _ fuel _) as [[st|e]|] eqn:E1; destruct (fit_main cfg G _ _ _ _ _ fuel _) as [[tt|e']|] eqn:E2; try contradiction; try exact I; [|exact A].
  destruct (fit_reached _ _ _ _ _ _ _ _ _ _ E1) as (H1 & _). destruct (fit_reached _ _ _ _ _ _ _ _ _ _ E2) as (H2 & _).
  cbn [same_result]. apply states_same; [|exact A].
  exact (same_pass_alike cfg _ _ _ _ _ _ _ _ _ (length D) (g_hier g) n F G (starting _ _) rel_start (starting_length _ _) (fun s => history_safe scale s Es) st H1 tt H2 A).
Qed.
End Whole.
