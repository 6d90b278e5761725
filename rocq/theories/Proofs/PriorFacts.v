(** Only the ratios, or the differences, of the prior predictions matter. *)
From Coq Require Import List Bool Reals Lra Lia FunctionalExtensionality.
From Verif.Proofs Require Import TrainFacts LinkFacts.
From Verif.Model Require Import Num LexBins Train Predict Link Quantile LossModes Price WholeFit BinFit PriceFit.
From Verif.Spec Require Import PriorSpec.
Import ListNotations.
Local Open Scope R_scope.

Lemma prior_mean_of D :
  weighted_mean (finite_values (map x_prior D) (map x_w D)) (finite_weights (map x_prior D) (map x_w D)) =
  if Reqb (prior_weight D) 0 then None else Some (prior_sum D / prior_weight D).
Proof.
  assert (W : sumR (finite_weights (map x_prior D) (map x_w D)) = prior_weight D).
  { induction D as [|s D IH]; [reflexivity|]. cbn. destruct (x_prior s); cbn; rewrite IH; lra. }
  assert (V : sumR (map2 Rmult (finite_values (map x_prior D) (map x_w D)) (finite_weights (map x_prior D) (map x_w D))) = prior_sum D).
  { clear W. induction D as [|s D IH]; [reflexivity|]. cbn. destruct (x_prior s); cbn; rewrite IH; lra. }
  unfold weighted_mean. rewrite W, V. reflexivity.
Qed.
Lemma moved_weight l c D : prior_weight (map (moved_row l c) D) = prior_weight D.
Proof. induction D as [|s D IH]; [reflexivity|]. cbn. rewrite IH. destruct (x_prior s); reflexivity. Qed.
Lemma moved_sum l c D : prior_sum (map (moved_row l c) D) =
  match l with Log => c * prior_sum D | _ => prior_sum D + c * prior_weight D end.
Proof.
  induction D as [|s D IH]; [destruct l; cbn; lra|]. cbn [map prior_sum prior_weight moved_row x_prior x_w]. rewrite IH.
  destruct (x_prior s), l; cbn [option_map moved]; lra.
Qed.
(** Rows with the prior prediction [p]. *)
Definition given (p : R) (s : sample) : sample :=
  {| x_bins := x_bins s; x_prior := Some p; x_y := x_y s; x_w := x_w s |}.
(** How far the linked values move. *)
Definition shift (l : link) (c : R) : R := match l with Log => ln c | _ => c end.
Lemma link_moved l c p : allowed_move l c -> link_func l (moved l c p) = option_map (fun v => v + shift l c) (link_func l p).
Proof.
  destruct l; cbn; intro A; [|contradiction|reflexivity].
  destruct (Rltb 0 p) eqn:P.
  - apply Rltb_iff in P. rewrite (proj2 (Rltb_iff _ _)) by (apply Rmult_lt_0_compat; assumption).
    cbn. rewrite ln_mult by assumption. f_equal. lra.
  - apply Rltb_false in P. rewrite (proj2 (Rltb_false _ _)); [reflexivity|]. nra.
Qed.
Lemma offset_moved l c scale D : allowed_move l c -> usable_prior l D ->
  prior_offset l scale (map x_prior (map (moved_row l c) D)) (map x_w (map (moved_row l c) D)) =
  prior_offset l scale (map x_prior D) (map x_w D) - shift l c.
Proof.
  intros A [W M]. unfold prior_offset. rewrite !prior_mean_of, moved_weight, moved_sum.
  rewrite (proj2 (Reqb_false_iff _ _)) by exact W. cbn [link_option].
  replace (match l with Log => c * prior_sum D | _ => prior_sum D + c * prior_weight D end / prior_weight D)
    with (moved l c (prior_sum D / prior_weight D)) by (destruct l; cbn; field; exact W).
  rewrite link_moved by exact A.
  destruct l; cbn [link_func] in *; [|contradiction|cbn [option_map shift]; lra].
  rewrite (proj2 (Rltb_iff _ _)) by exact M. cbn [option_map shift]. lra.
Qed.
Lemma start_moved l c scale offset p : allowed_move l c ->
  match link_option l (option_map (moved l c) p) with Some x => x + (offset - shift l c) | None => scale end =
  match link_option l p with Some x => x + offset | None => scale end.
Proof.
  intro A. destruct p as [p|]; [|reflexivity]. cbn [option_map link_option]. rewrite link_moved by exact A.
  destruct (link_func l p); cbn [option_map]; [lra|reflexivity].
Qed.
Lemma starts_moved l c scale offset (D : list sample) n : allowed_move l c ->
  prior_predictions scale (offset - shift l c) (Some (linked_prior l (map x_prior (map (moved_row l c) D)))) n =
  prior_predictions scale offset (Some (linked_prior l (map x_prior D))) n.
Proof.
  intro A. unfold prior_predictions, linked_prior. rewrite !map_map. apply map_ext. intro s. apply start_moved. exact A.
Qed.

(** ** Trainings on rows that differ in the prior predictions *)
Section Others.
Variable h : sample -> sample.
Hypothesis hb : forall s, x_bins (h s) = x_bins s.
Hypothesis hy : forall s, x_y (h s) = x_y s.
Hypothesis hw : forall s, x_w (h s) = x_w s.

Lemma other_y D : map x_y (map h D) = map x_y D.
Proof. rewrite map_map. apply map_ext. exact hy. Qed.
Lemma other_w D : map x_w (map h D) = map x_w D.
Proof. rewrite map_map. apply map_ext. exact hw. Qed.
Lemma other_bins D : map x_bins (map h D) = map x_bins D.
Proof. rewrite map_map. apply map_ext. exact hb. Qed.
Lemma other_groups D gs : forall i, bind_groups (map h D) i gs = bind_groups D i gs.
Proof.
  induction gs as [|g gs IH]; intro i; [reflexivity|]. cbn. rewrite IH. unfold bind_group. rewrite map_map.
  f_equal. f_equal. apply map_ext. intro s. rewrite hb. reflexivity.
Qed.
(** The models agree if all rows start at the same predictions. *)
Lemma whole_other gm bppf erfinv bad k prior prior' gs cfg rate fuel D :
  (forall scale, prior_predictions scale (kind_offset k scale (map x_prior (map h D)) (map x_w D)) (linked_column k prior' (map h D)) (length D) =
    prior_predictions scale (kind_offset k scale (map x_prior D) (map x_w D)) (linked_column k prior D) (length D)) ->
  same_end (fun t t' => o_groups t' = o_groups t /\ o_scale t' = o_scale t /\
      o_offset t = kind_offset k (o_scale t) (map x_prior D) (map x_w D) /\
      o_offset t' = kind_offset k (o_scale t) (map x_prior (map h D)) (map x_w D))
    (whole_fit gm bppf erfinv bad k prior gs cfg rate fuel D)
    (whole_fit gm bppf erfinv bad k prior' gs cfg rate fuel (map h D)).
Proof.
  intro ST. unfold whole_fit. rewrite other_y, other_w.
  destruct (kind_scale k (map x_y D) (map x_w D)) as [scale|]; [|exact I]. cbv zeta.
  unfold train. cbv zeta. rewrite other_y, other_w, other_groups, map_length, ST.
  destruct (fit_main _ _ _ _ _ _ _ _ _) as [[st|e]|]; [|reflexivity|exact I].
  cbn [same_end o_groups o_scale o_offset]. repeat split.
Qed.

(** ** Loss-minimising modes *)
Let h2 (e : sample * R) : sample * R := (h (fst e), snd e).
Lemma combine_other D ps : combine (map h D) ps = map h2 (combine D ps).
Proof. revert ps; induction D as [|s D IH]; intros [|p ps]; cbn; try reflexivity. rewrite IH. reflexivity. Qed.
Lemma content_other lex rows b : bin_content sample lex (map h2 rows) b = map h2 (bin_content sample lex rows b).
Proof.
  unfold bin_content. revert rows; induction lex as [|x lex IH]; intros [|r rows]; cbn; try reflexivity.
  destruct (Nat.eqb x b); cbn; rewrite IH; reflexivity.
Qed.
Lemma row_groups_other D gs : forall i, bind_row_groups sample x_bins (map h D) i gs = bind_row_groups sample x_bins D i gs.
Proof.
  induction gs as [|g gs IH]; intro i; [reflexivity|]. cbn. rewrite IH. unfold bind_row_group. rewrite map_map.
  f_equal. f_equal. apply map_ext. intro s. rewrite hb. reflexivity.
Qed.
Lemma loss_rows_other l rows : loss_rows l (map h2 rows) = loss_rows l rows.
Proof. unfold loss_rows. rewrite map_map. apply map_ext. intro e. cbn [h2 fst snd]. rewrite hy, hw. reflexivity. Qed.
Lemma mode_estimate_other minimize bppf erfinv reorder bad m rows : by_position reorder ->
  mode_estimate minimize bppf erfinv reorder bad m (map h2 rows) = mode_estimate minimize bppf erfinv reorder bad m rows.
Proof. intro B. unfold mode_estimate. rewrite B, loss_rows_other. reflexivity. Qed.
Lemma mode_scale_other sort m D : mode_scale sort m (map h D) = mode_scale sort m D.
Proof.
  unfold mode_scale. rewrite other_y, other_w, map_map. 
  replace (map (fun s => (x_y (h s), x_w (h s))) D) with (map (fun s => (x_y s, x_w s)) D); [reflexivity|].
  apply map_ext. intro s. rewrite hy, hw. reflexivity.
Qed.
Lemma mode_train_other minimize bppf erfinv reorder bad m gs cfg rate fuel start start' D : by_position reorder ->
  (forall s, In s D -> start' (h s) = start s) ->
  bin_train sample x_bins x_w (fun _ => mode_estimate minimize bppf erfinv reorder bad m) (mode_loss bad m) start' gs cfg rate fuel (map h D) =
  bin_train sample x_bins x_w (fun _ => mode_estimate minimize bppf erfinv reorder bad m) (mode_loss bad m) start gs cfg rate fuel D.
Proof.
  intros B A. unfold bin_train. cbv zeta. rewrite row_groups_other, !map_length.
  set (fs := bind_row_groups sample x_bins D 0 gs).
  assert (E : forall i it p, bin_estimates sample (fun _ => mode_estimate minimize bppf erfinv reorder bad m) fs (map h D) i it p =
    bin_estimates sample (fun _ => mode_estimate minimize bppf erfinv reorder bad m) fs D i it p).
  { intros i it p. unfold bin_estimates. destruct (nth_error fs i); [|reflexivity]. apply map_ext. intro b.
    rewrite combine_other, content_other, mode_estimate_other by exact B. reflexivity. }
  replace (map start' (map h D)) with (map start D) by (rewrite map_map; apply map_ext_in; intros s I; symmetry; apply A; exact I).
  f_equal.
  - apply functional_extensionality; intro i. apply functional_extensionality; intro it. apply functional_extensionality; intro p.
    rewrite E. reflexivity.
  - apply functional_extensionality; intro i. apply functional_extensionality; intro it. apply functional_extensionality; intro p.
    apply functional_extensionality; intro v. apply functional_extensionality; intro b.
    unfold bin_smoothing. destruct (nth_error gs i), (nth_error fs i); try reflexivity. rewrite E, other_w. reflexivity.
  - apply functional_extensionality; intro p. rewrite combine_other. unfold mode_loss. rewrite loss_rows_other. reflexivity.
Qed.
Lemma mode_other sort minimize bppf erfinv reorder bad m prior prior' gs cfg rate fuel D : by_position reorder ->
  (forall scale s, In s D ->
    mode_start m prior' scale (prior_offset (mode_link m) scale (map x_prior (map h D)) (map x_w D)) (h s) =
    mode_start m prior scale (prior_offset (mode_link m) scale (map x_prior D) (map x_w D)) s) ->
  same_end (fun t t' => o_groups t' = o_groups t /\ o_scale t' = o_scale t /\
      o_offset t = prior_offset (mode_link m) (o_scale t) (map x_prior D) (map x_w D) /\
      o_offset t' = prior_offset (mode_link m) (o_scale t) (map x_prior (map h D)) (map x_w D))
    (mode_fit sort minimize bppf erfinv reorder bad m prior gs cfg rate fuel D)
    (mode_fit sort minimize bppf erfinv reorder bad m prior' gs cfg rate fuel (map h D)).
Proof.
  intros B ST. unfold mode_fit. rewrite mode_scale_other, other_w. destruct (mode_scale sort m D) as [scale|]; [|exact I]. cbv zeta.
  unfold bin_fit. rewrite (mode_train_other minimize bppf erfinv reorder bad m gs cfg rate fuel _ _ D B (ST scale)), row_groups_other.
  destruct (bin_train _ _ _ _ _ _ _ _ _ _ _) as [[st|e]|]; [|reflexivity|exact I].
  cbn [same_end o_groups o_scale o_offset]. repeat split.
Qed.

(** ** The price model *)
Definition other_price (r : price_sample) : price_sample := {| q_row := h (q_row r); q_price := q_price r; q_exponent := q_exponent r |}.
Let pw (r : price_sample) := x_w (q_row r).
Let py (r : price_sample) := x_y (q_row r).
Lemma price_other_w D : map (fun r => x_w (q_row r)) (map other_price D) = map (fun r => x_w (q_row r)) D.
Proof. rewrite map_map. apply map_ext. intro r. exact (hw (q_row r)). Qed.
Lemma price_other_bound e D : map (bound_weight e) (map other_price D) = map (bound_weight e) D.
Proof. rewrite map_map. apply map_ext. intro r. unfold bound_weight. cbn [other_price q_row q_price]. rewrite hw. reflexivity. Qed.
Lemma price_other_y D : map (fun r => x_y (q_row r)) (map other_price D) = map (fun r => x_y (q_row r)) D.
Proof. rewrite map_map. apply map_ext. intro r. exact (hy (q_row r)). Qed.
Lemma price_other_bins D : map (fun r => x_bins (q_row r)) (map other_price D) = map (fun r => x_bins (q_row r)) D.
Proof. rewrite map_map. apply map_ext. intro r. exact (hb (q_row r)). Qed.
Lemma price_groups_other D gs : forall i, bind_price_groups (map other_price D) i gs = bind_price_groups D i gs.
Proof.
  induction gs as [|g gs IH]; intro i; [reflexivity|]. cbn. rewrite IH. unfold bind_price_group. rewrite map_map.
  f_equal. f_equal. apply map_ext. intro s. cbn. rewrite hb. reflexivity.
Qed.
Lemma link_rows_other D p : link_rows (map other_price D) p = link_rows D p.
Proof.
  unfold link_rows. generalize (combine (p_factors p) (p_exponents p)). induction D as [|s D IH]; intros [|e l]; cbn; try reflexivity.
  rewrite IH. reflexivity.
Qed.
Lemma exponent_rows_other a c0 lex D p : exponent_rows a c0 lex (map other_price D) p = exponent_rows a c0 lex D p.
Proof.
  unfold exponent_rows. rewrite link_rows_other. generalize (link_rows D p) as ls. revert lex.
  induction D as [|s D IH]; intros [|b lex] [|e l]; cbn; try reflexivity. rewrite IH. f_equal.
  unfold exponent_row, external_weight. cbn. rewrite hy, hw. reflexivity.
Qed.
Lemma price_estimates_other gm a c0 vl fs D i p : price_estimates gm a c0 vl fs (map other_price D) i p = price_estimates gm a c0 vl fs D i p.
Proof.
  unfold price_estimates, price_scores. destruct (nth_error fs i); [|reflexivity]. cbv zeta.
  rewrite exponent_rows_other, link_rows_other, price_other_w, price_other_bound, price_other_y. reflexivity.
Qed.
Lemma price_train_other gm a c0 vl prior prior' gs cfg rate fuel D scale offset offset' :
  prior_predictions scale offset' (price_column prior' (map other_price D)) (length D) = prior_predictions scale offset (price_column prior D) (length D) ->
  price_train gm a c0 vl prior' gs cfg rate fuel (map other_price D) scale offset' =
  price_train gm a c0 vl prior gs cfg rate fuel D scale offset.
Proof.
  intro A. unfold price_train. cbv zeta. rewrite price_groups_other, map_length, A.
  set (fs := bind_price_groups D 0 gs). f_equal.
  - apply functional_extensionality; intro i. apply functional_extensionality; intro it. apply functional_extensionality; intro p.
    rewrite price_estimates_other. reflexivity.
  - apply functional_extensionality; intro i. apply functional_extensionality; intro it. apply functional_extensionality; intro p.
    apply functional_extensionality; intro v. apply functional_extensionality; intro b.
    unfold price_smoothing. destruct (nth_error gs i), (nth_error fs i); try reflexivity. rewrite price_estimates_other, price_other_bound. reflexivity.
  - apply functional_extensionality; intro p. unfold price_loss, price_scores. rewrite link_rows_other, price_other_w, price_other_y. reflexivity.
Qed.
Lemma price_other_prior D : map (fun r => x_prior (q_row r)) (map other_price D) = map x_prior (map h (map q_row D)).
Proof. rewrite !map_map. reflexivity. Qed.
Lemma price_other gm a c0 vl prior prior' gs cfg rate fuel D :
  (forall scale,
    prior_predictions scale (prior_offset Log scale (map x_prior (map h (map q_row D))) (map x_w (map q_row D))) (price_column prior' (map other_price D)) (length D) =
    prior_predictions scale (prior_offset Log scale (map x_prior (map q_row D)) (map x_w (map q_row D))) (price_column prior D) (length D)) ->
  same_end (fun t t' => o_groups t' = o_groups t /\ o_scale t' = o_scale t /\
      o_offset t = prior_offset Log (o_scale t) (map x_prior (map q_row D)) (map x_w (map q_row D)) /\
      o_offset t' = prior_offset Log (o_scale t) (map x_prior (map h (map q_row D))) (map x_w (map q_row D)))
    (price_fit gm a c0 vl prior gs cfg rate fuel D)
    (price_fit gm a c0 vl prior' gs cfg rate fuel (map other_price D)).
Proof.
  intro ST. unfold price_fit. cbv zeta. rewrite price_other_y, price_other_w.
  destruct (global_scale _ _ _) as [scale|]; [|exact I].
  rewrite price_other_prior. specialize (ST scale). rewrite (map_map q_row x_prior), (map_map q_row x_w) in ST.
  rewrite (price_train_other gm a c0 vl prior prior' gs cfg rate fuel D scale _ _ ST), price_groups_other.
  destruct (price_train _ _ _ _ _ _ _ _ _ _ _ _) as [[st|e]|]; [|reflexivity|exact I].
  cbn [same_end o_groups o_scale o_offset]. rewrite !(map_map q_row). repeat split.
Qed.
End Others.

(** ** Moved prior predictions *)
Lemma same_end_imp (P Q : model -> model -> Prop) r r' : (forall t t', P t t' -> Q t t') -> same_end P r r' -> same_end Q r r'.
Proof. intro H. destruct r, r'; cbn; auto. Qed.
Lemma whole_moved gm bppf erfinv bad k gs cfg rate fuel c D :
  allowed_move (kind_link k) c -> usable_prior (kind_link k) D -> (forall a, k <> GBSRegressor a) ->
  same_end (fun t t' => o_groups t' = o_groups t /\
      forall X, whole_predict k true t' (map (moved_row (kind_link k) c) X) = whole_predict k true t X)
    (whole_fit gm bppf erfinv bad k true gs cfg rate fuel D)
    (whole_fit gm bppf erfinv bad k true gs cfg rate fuel (map (moved_row (kind_link k) c) D)).
Proof.
  intros A U NG. set (h := moved_row (kind_link k) c).
  assert (O' : forall scale, kind_offset k scale (map x_prior (map h D)) (map x_w D) =
    kind_offset k scale (map x_prior D) (map x_w D) - shift (kind_link k) c).
  { intro scale. rewrite <- (other_w h (fun s => eq_refl) D) at 1. destruct k; try (apply offset_moved; assumption). exfalso. eapply NG. reflexivity. }
  eapply same_end_imp; [|apply (whole_other h (fun s => eq_refl) (fun s => eq_refl) (fun s => eq_refl))].
  - intros t t' (G & SC & O1 & O2). split; [exact G|]. intro X.
    unfold whole_predict, cb_predict, linked_column. rewrite G, SC, O2, O', <- O1. unfold h.
    rewrite starts_moved by exact A. rewrite (other_bins (moved_row (kind_link k) c) (fun s => eq_refl)). reflexivity.
  - intro scale. rewrite O'. apply starts_moved. exact A.
Qed.
Lemma mode_moved sort minimize bppf erfinv reorder bad m gs cfg rate fuel c D : by_position reorder ->
  allowed_move (mode_link m) c -> usable_prior (mode_link m) D ->
  same_end (fun t t' => o_groups t' = o_groups t /\
      forall X, mode_predict m true t' (map (moved_row (mode_link m) c) X) = mode_predict m true t X)
    (mode_fit sort minimize bppf erfinv reorder bad m true gs cfg rate fuel D)
    (mode_fit sort minimize bppf erfinv reorder bad m true gs cfg rate fuel (map (moved_row (mode_link m) c) D)).
Proof.
  intros B A U. set (h := moved_row (mode_link m) c).
  assert (O' : forall scale, prior_offset (mode_link m) scale (map x_prior (map h D)) (map x_w D) =
    prior_offset (mode_link m) scale (map x_prior D) (map x_w D) - shift (mode_link m) c).
  { intro scale. rewrite <- (other_w h (fun s => eq_refl) D) at 1. apply offset_moved; assumption. }
  eapply same_end_imp; [|apply (mode_other h (fun s => eq_refl) (fun s => eq_refl) (fun s => eq_refl)); [exact B|]].
  - intros t t' (G & SC & O1 & O2). split; [exact G|]. intro X.
    unfold mode_predict, cb_predict. rewrite G, SC, O2, O', <- O1. unfold h.
    rewrite starts_moved by exact A. rewrite (other_bins (moved_row (mode_link m) c) (fun s => eq_refl)). reflexivity.
  - intros scale s _. rewrite O'. apply start_moved. exact A.
Qed.
Lemma price_moved gm a c0 vl gs cfg rate fuel c D : 0 < c -> usable_prior Log (map q_row D) ->
  same_end (fun t t' => o_groups t' = o_groups t /\
      forall X, price_fit_predict true t' (map (moved_price c) X) = price_fit_predict true t X)
    (price_fit gm a c0 vl true gs cfg rate fuel D)
    (price_fit gm a c0 vl true gs cfg rate fuel (map (moved_price c) D)).
Proof.
  intros A U. set (h := moved_row Log c).
  assert (O' : forall scale, prior_offset Log scale (map x_prior (map h (map q_row D))) (map x_w (map q_row D)) =
    prior_offset Log scale (map x_prior (map q_row D)) (map x_w (map q_row D)) - ln c).
  { intro scale. rewrite <- (other_w h (fun s => eq_refl) (map q_row D)) at 1. apply (offset_moved Log); assumption. }
  assert (S' : forall scale offset (X : list price_sample) n, prior_predictions scale (offset - ln c) (price_column true (map (moved_price c) X)) n =
    prior_predictions scale offset (price_column true X) n).
  { intros scale offset X n. unfold price_column. pose proof (starts_moved Log c scale offset (map q_row X) n A) as E.
    rewrite !map_map in E. rewrite !map_map. exact E. }
  eapply same_end_imp; [|apply (price_other h (fun s => eq_refl) (fun s => eq_refl) (fun s => eq_refl))].
  - intros t t' (G & SC & O1 & O2). split; [exact G|]. intro X.
    unfold price_fit_predict, price_scores. rewrite G, SC, O2, O', <- O1.
    change (moved_price c) with (other_price h).
    rewrite (link_rows_other h), map_length, (price_other_bins h (fun s => eq_refl)).
    change (other_price h) with (moved_price c). rewrite S'. reflexivity.
  - intro scale. rewrite O'. apply S'.
Qed.
(** Without a prior prediction column it does not matter what is in it. *)
Lemma whole_given gm bppf erfinv bad k gs cfg rate fuel p D t :
  whole_fit gm bppf erfinv bad k false gs cfg rate fuel D = Trained t ->
  exists t', whole_fit gm bppf erfinv bad k false gs cfg rate fuel (map (given p) D) = Trained t' /\ o_groups t' = o_groups t.
Proof.
  intro E. pose proof (whole_other (given p) (fun s => eq_refl) (fun s => eq_refl) (fun s => eq_refl) gm bppf erfinv bad k false false gs cfg rate fuel D (fun _ => eq_refl)) as H.
  rewrite E in H. destruct (whole_fit gm bppf erfinv bad k false gs cfg rate fuel (map (given p) D)) as [| | |t']; try contradiction.
  exists t'. split; [reflexivity|apply H].
Qed.
Lemma mode_given sort minimize bppf erfinv reorder bad m gs cfg rate fuel p D t : by_position reorder ->
  mode_fit sort minimize bppf erfinv reorder bad m false gs cfg rate fuel D = Trained t ->
  exists t', mode_fit sort minimize bppf erfinv reorder bad m false gs cfg rate fuel (map (given p) D) = Trained t' /\ o_groups t' = o_groups t.
Proof.
  intros B E. pose proof (mode_other (given p) (fun s => eq_refl) (fun s => eq_refl) (fun s => eq_refl) sort minimize bppf erfinv reorder bad m false false gs cfg rate fuel D B (fun _ _ _ => eq_refl)) as H.
  rewrite E in H. destruct (mode_fit sort minimize bppf erfinv reorder bad m false gs cfg rate fuel (map (given p) D)) as [| | |t']; try contradiction.
  exists t'. split; [reflexivity|apply H].
Qed.
Lemma price_given gm a c0 vl gs cfg rate fuel p D t :
  price_fit gm a c0 vl false gs cfg rate fuel D = Trained t ->
  exists t', price_fit gm a c0 vl false gs cfg rate fuel (map (other_price (given p)) D) = Trained t' /\ o_groups t' = o_groups t.
Proof.
  intro E. pose proof (price_other (given p) (fun s => eq_refl) (fun s => eq_refl) (fun s => eq_refl) gm a c0 vl false false gs cfg rate fuel D (fun _ => eq_refl)) as H.
  rewrite E in H. destruct (price_fit gm a c0 vl false gs cfg rate fuel (map (other_price (given p)) D)) as [| | |t']; try contradiction.
  exists t'. split; [reflexivity|apply H].
Qed.

(** ** One prior prediction for all rows *)
Lemma constant_sums p D : (forall s, In s D -> x_prior s = Some p) -> prior_sum D = p * prior_weight D.
Proof.
  induction D as [|s D IH]; intro H; [cbn; lra|]. cbn [prior_sum prior_weight]. rewrite IH by (intros; apply H; right; assumption).
  rewrite (H s (or_introl eq_refl)). lra.
Qed.
Lemma constant_offset l p v scale D : (forall s, In s D -> x_prior s = Some p) -> prior_weight D <> 0 -> link_func l p = Some v ->
  prior_offset l scale (map x_prior D) (map x_w D) = scale - v.
Proof.
  intros H W L. unfold prior_offset. rewrite prior_mean_of, (proj2 (Reqb_false_iff _ _)) by exact W.
  rewrite (constant_sums p D H). replace (p * prior_weight D / prior_weight D) with p by (field; exact W).
  cbn [link_option]. rewrite L. reflexivity.
Qed.
Lemma constant_starts l p v scale (X : list sample) : (forall s, In s X -> x_prior s = Some p) -> link_func l p = Some v ->
  prior_predictions scale (scale - v) (Some (linked_prior l (map x_prior X))) (length X) = repeat scale (length X).
Proof.
  intros H L. unfold prior_predictions, linked_prior. rewrite !map_map.
  induction X as [|s X IH]; [reflexivity|]. cbn [map length repeat]. rewrite IH by (intros; apply H; right; assumption).
  rewrite (H s (or_introl eq_refl)). cbn [link_option]. rewrite L. f_equal. lra.
Qed.
Lemma whole_constant gm bppf erfinv bad k gs cfg rate fuel p D :
  (forall a, k <> GBSRegressor a) -> link_func (kind_link k) p <> None -> prior_weight D <> 0 -> all_priors p D ->
  whole_fit gm bppf erfinv bad k true gs cfg rate fuel D = whole_fit gm bppf erfinv bad k false gs cfg rate fuel D /\
  forall t X, whole_fit gm bppf erfinv bad k false gs cfg rate fuel D = Trained t -> all_priors p X ->
    whole_predict k true t X = whole_predict k false t X.
Proof.
  intros NG L W H. destruct (link_func (kind_link k) p) as [v|] eqn:LV; [clear L|congruence].
  assert (O' : forall scale, kind_offset k scale (map x_prior D) (map x_w D) = scale - v).
  { intro scale. destruct k; try (eapply constant_offset; eassumption). exfalso. eapply NG. reflexivity. }
  unfold whole_fit. split.
  - destruct (kind_scale k (map x_y D) (map x_w D)) as [scale|]; [|reflexivity]. cbv zeta. rewrite O'.
    unfold train. cbv zeta. unfold linked_column. rewrite (constant_starts _ p v) by assumption. reflexivity.
  - intros t X. destruct (kind_scale k (map x_y D) (map x_w D)) as [scale|]; [|discriminate]. cbv zeta. rewrite O'.
    destruct (train _ _ _ _ _ _ _ _ _ _ _ _ _) as [[st|e]|]; try discriminate. intros E HX. injection E as <-.
    unfold whole_predict, cb_predict, linked_column. cbn [o_scale o_offset o_groups]. rewrite map_length.
    rewrite (constant_starts _ p v) by assumption. reflexivity.
Qed.
Lemma mode_constant sort minimize bppf erfinv reorder bad m gs cfg rate fuel p D :
  link_func (mode_link m) p <> None -> prior_weight D <> 0 -> all_priors p D ->
  mode_fit sort minimize bppf erfinv reorder bad m true gs cfg rate fuel D = mode_fit sort minimize bppf erfinv reorder bad m false gs cfg rate fuel D /\
  forall t X, mode_fit sort minimize bppf erfinv reorder bad m false gs cfg rate fuel D = Trained t -> all_priors p X ->
    mode_predict m true t X = mode_predict m false t X.
Proof.
  intros L W H. destruct (link_func (mode_link m) p) as [v|] eqn:LV; [clear L|congruence].
  pose proof (fun scale => constant_offset (mode_link m) p v scale D H W LV) as O'. unfold mode_fit. split.
  - destruct (mode_scale sort m D) as [scale|]; [|reflexivity]. cbv zeta. rewrite O'. unfold bin_fit, bin_train. cbv zeta.
    replace (map (mode_start m true scale (scale - v)) D) with (map (mode_start m false scale (scale - v)) D); [reflexivity|].
    apply map_ext_in. intros s I. unfold mode_start. rewrite (H s I). cbn [link_option]. rewrite LV. lra.
  - intros t X. destruct (mode_scale sort m D) as [scale|]; [|discriminate]. cbv zeta. rewrite O'. unfold bin_fit.
    destruct (bin_train _ _ _ _ _ _ _ _ _ _ _) as [[st|e]|]; try discriminate. intros E HX. injection E as <-.
    unfold mode_predict, cb_predict. cbn [o_scale o_offset o_groups]. rewrite map_length.
    rewrite (constant_starts _ p v) by assumption. reflexivity.
Qed.
Lemma price_constant gm a c0 vl gs cfg rate fuel p D : 0 < p -> prior_weight (map q_row D) <> 0 -> all_priors p (map q_row D) ->
  price_fit gm a c0 vl true gs cfg rate fuel D = price_fit gm a c0 vl false gs cfg rate fuel D /\
  forall t X, price_fit gm a c0 vl false gs cfg rate fuel D = Trained t -> all_priors p (map q_row X) ->
    price_fit_predict true t X = price_fit_predict false t X.
Proof.
  intros P W H. assert (LV : link_func Log p = Some (ln p)) by (cbn; rewrite (proj2 (Rltb_iff _ _)) by exact P; reflexivity).
  assert (O' : forall scale, prior_offset Log scale (map (fun r => x_prior (q_row r)) D) (map (fun r => x_w (q_row r)) D) = scale - ln p).
  { intro scale. pose proof (constant_offset Log p (ln p) scale (map q_row D) H W LV) as E. rewrite !map_map in E. exact E. }
  assert (S' : forall scale X, all_priors p (map q_row X) -> prior_predictions scale (scale - ln p) (price_column true X) (length X) = repeat scale (length X)).
  { intros scale X HX. pose proof (constant_starts Log p (ln p) scale (map q_row X) HX LV) as E. rewrite map_map, map_length in E. exact E. }
  unfold price_fit. cbv zeta. split.
  - destruct (global_scale _ _ _) as [scale|]; [|reflexivity]. rewrite O'. unfold price_train. cbv zeta. rewrite (S' scale D H). reflexivity.
  - intros t X. destruct (global_scale _ _ _) as [scale|]; [|discriminate]. rewrite O'.
    destruct (price_train _ _ _ _ _ _ _ _ _ _ _ _) as [[st|e]|]; try discriminate. intros E HX. injection E as <-.
    unfold price_fit_predict. cbn [o_scale o_offset o_groups]. rewrite S' by exact HX. reflexivity.
Qed.
