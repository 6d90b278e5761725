(** The order of the rows, the range of predictions and the weights for loss-minimising
    modes and the dispersion estimator. *)
From Coq Require Import ZArith QArith List Bool Reals Lra Lia Permutation Sorted FunctionalExtensionality.
From Verif.Model Require Import Num LexBins Train Predict Link Estimators WholeFit Quantile LossModes Dispersion BinFit BinSmoothers.
From Verif.Spec Require Import DataSpec QuantileSpec BinFitSpec.
From Verif.Proofs Require Import LinkFacts NeutralFacts OrderFacts QuantileFacts RangeFacts BinOrderFacts.
Import ListNotations.
Local Open Scope R_scope.

Lemma map2_rows' {A} (f : R -> R -> R) (a b : A -> R) E : map2 f (map a E) (map b E) = map (fun s => f (a s) (b s)) E.
Proof. induction E; cbn; f_equal; auto. Qed.

Lemma mean_any {A} (y w : A -> R) D D' : Permutation D D' -> weighted_mean (map y D) (map w D) = weighted_mean (map y D') (map w D').
Proof.
  intro P. unfold weighted_mean. rewrite !map2_rows'. rewrite (sum_perm' w D D' P), (sum_perm' (fun s => y s * w s) D D' P). auto.
Qed.
Lemma prior_offset_any l scale D D' : Permutation D D' ->
  prior_offset l scale (map x_prior D) (map x_w D) = prior_offset l scale (map x_prior D') (map x_w D').
Proof.
  intro P. unfold prior_offset, weighted_mean.
  destruct (finite_values_sum x_prior x_w D) as [-> ->]. destruct (finite_values_sum x_prior x_w D') as [-> ->].
  rewrite !(sum_perm' _ D D' P). auto.
Qed.

Lemma quantile_costs_rows q (rows : list (R * R * R)) :
  quantile_costs (map (fun r => fst (fst r)) rows) (map (fun r => snd (fst r)) rows) (map snd rows) q =
  match rows with [] => Some 0 | _ => if Reqb (sumR (map snd rows)) 0 then None else
    Some (sumR (map (fun r => pinball q (fst (fst r)) (snd (fst r)) * snd r) rows) / sumR (map snd rows)) end.
Proof. unfold quantile_costs. rewrite !map2_rows'. destruct rows; reflexivity. Qed.
Lemma mode_costs_any m : symmetric_mode m -> symmetric_costs (mode_costs m).
Proof.
  assert (Q : forall q, symmetric_costs (fun p y w => quantile_costs p y w q)).
  { intros q rows rows' P. rewrite !quantile_costs_rows.
    rewrite !(sum_perm' _ rows rows' P). destruct rows as [|r rows], rows' as [|r' rows']; auto.
    - apply Permutation_nil in P. discriminate.
    - apply Permutation_sym, Permutation_nil in P. discriminate. }
  destruct m; cbn; auto.
Qed.
Definition triple (f : R -> R) (s : Quantile.sample) : R * R * R := (f (s_pred s), s_y s, s_w s).
Lemma costs_samples m f l l' : symmetric_mode m -> Permutation l l' ->
  mode_costs m (map (fun s => f (s_pred s)) l) (map s_y l) (map s_w l) = mode_costs m (map (fun s => f (s_pred s)) l') (map s_y l') (map s_w l').
Proof.
  intros S P. pose proof (mode_costs_any m S (map (triple f) l) (map (triple f) l') (Permutation_map _ P)) as E.
  rewrite !map_map in E. exact E.
Qed.
Lemma uncertainty_any bppf erfinv m (l l' : list Quantile.sample) : Permutation l l' ->
  mode_uncertainty bppf erfinv m (map s_y l) (map s_w l) = mode_uncertainty bppf erfinv m (map s_y l') (map s_w l').
Proof.
  intro P.
  assert (G : uncertainty_gamma (map s_y l) (map s_w l) = uncertainty_gamma (map s_y l') (map s_w l')).
  { unfold uncertainty_gamma. rewrite !map2_rows', (sum_perm' _ l l' P). auto. }
  assert (N : uncertainty_gaussian (map s_y l) (map s_w l) = uncertainty_gaussian (map s_y l') (map s_w l')).
  { assert (X : gaussian_of_rows (map s_y l) (map s_w l) = gaussian_of_rows (map s_y l') (map s_w l')).
    { unfold gaussian_of_rows. cbv zeta. rewrite !map_map, !map2_rows'.
      rewrite (sum_perm' s_w l l' P). destruct (Reqb _ 0); auto.
      rewrite (sum_perm' (fun s => s_y s * s_w s) l l' P). set (mu := sumR (map (fun s => s_y s * s_w s) l') / sumR (map s_w l')).
      rewrite (sum_perm' (fun s => s_w s * (s_y s - mu) ^ 2) l l' P).
      set (v := sumR (map (fun s => s_w s * (s_y s - mu) ^ 2) l')). clearbody v.
      rewrite !(sum_perm' _ l l' P). auto. }
    unfold uncertainty_gaussian. destruct l as [|r rows], l' as [|r' rows']; auto.
    - apply Permutation_nil in P. discriminate.
    - apply Permutation_sym, Permutation_nil in P. discriminate. }
  destruct m; cbn [mode_uncertainty]; rewrite ?G; auto.
  all: unfold uncertainty_beta; rewrite !map2_rows', !(sum_perm' _ l l' P); auto.
Qed.
Lemma mode_estimate_any minimize bppf erfinv reorder bad m l l' : reorders reorder -> symmetric_mode m -> Permutation l l' ->
  mode_estimate minimize bppf erfinv reorder bad m l = mode_estimate minimize bppf erfinv reorder bad m l'.
Proof.
  intros RE S P. unfold mode_estimate. cbv zeta.
  assert (PR : Permutation (loss_rows (mode_link m) (reorder _ l)) (loss_rows (mode_link m) (reorder _ l'))).
  { apply Permutation_map. eapply Permutation_trans; [apply RE|]. eapply Permutation_trans; [exact P|]. apply Permutation_sym, RE. }
  set (r := loss_rows _ (reorder _ l)) in *. set (r' := loss_rows _ (reorder _ l')) in *. clearbody r r'.
  rewrite (uncertainty_any bppf erfinv m r r' PR). f_equal. f_equal. f_equal.
  unfold optimization. f_equal. apply functional_extensionality. intro p. unfold objective.
  assert (M : exists f, mode_model m p = map f).
  { destruct m; [exists (fun v => p * v)|exists (fun v => p + v)|exists (fun v => p * v)|exists (fun v => p + v)|exists (fun v => p * v)]; reflexivity. }
  destruct M as [f ->]. rewrite !map_map. apply costs_samples; auto.
Qed.
Lemma mode_loss_any bad m l l' : symmetric_mode m -> Permutation l l' -> mode_loss bad m l = mode_loss bad m l'.
Proof.
  intros S P. unfold mode_loss. cbv zeta. f_equal.
  apply (costs_samples m (fun x => x) (loss_rows (mode_link m) l) (loss_rows (mode_link m) l') S). apply Permutation_map, P.
Qed.
Lemma mode_scale_any sort m D D' : sorts sort -> symmetric_mode m -> weighted_data D -> Permutation D D' ->
  mode_scale sort m D = mode_scale sort m D'.
Proof.
  intros SO S W P.
  assert (Q : forall q, 0 < q <= 1 -> continuous_quantile sort (map (fun s => (x_y s, x_w s)) D) q = continuous_quantile sort (map (fun s => (x_y s, x_w s)) D') q).
  { intros q Hq. apply continuous_any; auto; [|apply Permutation_map, P]. destruct W as [A B]. split.
    - intros r I. apply in_map_iff in I. destruct I as (s & <- & I). apply A, I.
    - unfold total_weight. rewrite map_map. exact B. }
  assert (G : forall l, global_scale l (map x_y D) (map x_w D) = global_scale l (map x_y D') (map x_w D')).
  { intro l. unfold global_scale. rewrite (mean_any x_y x_w D D' P). auto. }
  destruct m; cbn [mode_scale symmetric_mode] in *; auto; unfold quantile_global_scale; rewrite Q by auto; auto.
Qed.
Theorem mode_order sort minimize bppf erfinv reorder bad m prior gs cfg rate fuel D D' :
  sorts sort -> reorders reorder -> symmetric_mode m -> weighted_data D -> well_formed gs D -> Permutation D D' ->
  mode_fit sort minimize bppf erfinv reorder bad m prior gs cfg rate fuel D =
  mode_fit sort minimize bppf erfinv reorder bad m prior gs cfg rate fuel D'.
Proof.
  intros SO RE S W F P. unfold mode_fit. rewrite <- (mode_scale_any sort m D D' SO S W P).
  destruct (mode_scale sort m D) as [scale|]; auto. cbv zeta. rewrite <- (prior_offset_any _ scale D D' P).
  apply fit_pair; auto.
  - intros _ l l' PL. apply mode_estimate_any; auto.
  - intros l l' PL. apply mode_loss_any; auto.
Qed.

(** ** Dispersion *)
Lemma bin_rows_any (l l' : list crow) j : Permutation l l' -> Permutation (bin_rows l j) (bin_rows l' j).
Proof. apply filter_perm. Qed.
Lemma dispersion_estimate_any lgamma gamma bayes n it l l' : Permutation l l' ->
  dispersion_estimate lgamma gamma bayes n it l = dispersion_estimate lgamma gamma bayes n it l'.
Proof.
  intro P. pose (g := fun e : mean_row * R => {| c_y := x_y (fst (fst e)); c_mu := snd (fst e); c_link := snd e; c_bin := 0 |}).
  pose (r := map g l). pose (r' := map g l'). assert (PR : Permutation r r') by apply Permutation_map, P.
  assert (E : calc_parameters lgamma r 1 gamma bayes n (S it) = calc_parameters lgamma r' 1 gamma bayes n (S it)).
  { clearbody r r'. unfold calc_parameters. f_equal.
    - unfold calc_parameters_nbinom_c. apply map_ext. intro j.
      replace (map (bin_loss lgamma r gamma j) (new_c_links (S it) n)) with (map (bin_loss lgamma r' gamma j) (new_c_links (S it) n)); auto.
      apply map_ext. intro c. unfold bin_loss. symmetry. apply sum_perm', bin_rows_any, PR.
    - apply map_ext. intro j. rewrite (Permutation_length (bin_rows_any r r' j PR)). auto. }
  exact (f_equal (fun c => let '(a, b) := c in (nth 0 a 0, nth 0 b 0)) E).
Qed.
Lemma dispersion_loss_any lgamma gamma l l' : Permutation l l' -> dispersion_loss lgamma gamma l = dispersion_loss lgamma gamma l'.
Proof.
  intro P. unfold dispersion_loss, loss_nbinom_c, mean. rewrite !map_map, !map_length. unfold mean_row in *.
  rewrite (Permutation_length P), (sum_perm' _ l l' P). auto.
Qed.
Theorem dispersion_order lgamma gamma bayes n prior gs cfg rate fuel D D' :
  well_formed gs (map fst D) -> Permutation D D' ->
  dispersion_fit lgamma gamma bayes n prior gs cfg rate fuel D = dispersion_fit lgamma gamma bayes n prior gs cfg rate fuel D'.
Proof.
  intros F P. unfold dispersion_fit. apply fit_pair; auto.
  - intros r i g I G. apply (F (fst r) i g); auto. apply in_map, I.
  - intros; apply dispersion_estimate_any; auto.
  - intros; apply dispersion_loss_any; auto.
Qed.

(** ** Range *)
Lemma mode_range_all prior m t X :
  length (mode_predict m prior t X) = length X /\ forall v, In v (mode_predict m prior t X) -> mode_range m v.
Proof.
  unfold mode_predict. split.
  - destruct (predict_rows (unlink_func (mode_link m)) (o_scale t) (o_offset t) (o_groups t)
      (if prior then Some (linked_prior (mode_link m) (map x_prior X)) else None) (map x_bins X)) as [L _].
    + destruct prior; [|discriminate]. intros l E. injection E as <-. unfold linked_prior. rewrite !map_length. auto.
    + rewrite L. apply map_length.
  - intros v I. unfold cb_predict in I. apply in_map_iff in I. destruct I as (s & <- & _).
    destruct m; cbn [mode_range mode_link]; auto;
      [apply (unlinked_range PoissonRegressor s)|apply (unlinked_range PoissonRegressor s)|apply (unlinked_range BinaryClassifier s)].
Qed.
Lemma dispersion_range prior t X :
  length (dispersion_predict prior t X) = length X /\ forall v, In v (dispersion_predict prior t X) -> 0 < v < 1.
Proof.
  unfold dispersion_predict. split.
  - destruct (predict_rows (unlink_func Logit) (o_scale t) (o_offset t) (o_groups t)
      (if prior then Some (map (fun s => linked_dispersion (x_prior s)) X) else None) (map x_bins X)) as [L _].
    + destruct prior; [|discriminate]. intros l E. injection E as <-. rewrite !map_length. auto.
    + rewrite L. apply map_length.
  - intros v I. unfold cb_predict in I. apply in_map_iff in I. destruct I as (s & <- & _). apply (unlinked_range BinaryClassifier s).
Qed.

(** ** Weights of the dispersion estimator *)
Lemma same_rows_map {A} (h : mean_row -> A) D D' : (forall a b, same_but_weight a b -> h a = h b) -> Forall2 same_but_weight D D' -> map h D = map h D'.
Proof. intros H F. induction F; cbn; f_equal; auto. Qed.
Lemma same_groups D D' : Forall2 same_but_weight D D' -> forall gs i,
  bind_row_groups mean_row (fun r => x_bins (fst r)) D i gs = bind_row_groups mean_row (fun r => x_bins (fst r)) D' i gs.
Proof.
  intros F gs. induction gs as [|g gs IH]; intro i; cbn; auto. f_equal; auto. unfold bind_row_group. f_equal.
  apply same_rows_map; auto. intros a b (E & _). rewrite E. auto.
Qed.
Lemma same_content_rows lex D D' : Forall2 same_but_weight D D' -> forall p b,
  Forall2 (fun a b => same_but_weight (fst a) (fst b) /\ snd a = snd b) (bin_content mean_row lex (combine D p) b) (bin_content mean_row lex (combine D' p) b).
Proof.
  intros F p b. unfold bin_content. revert lex p. induction F as [|x y D D' S F IH]; intros lex p.
  - destruct lex; cbn; constructor.
  - destruct lex as [|k lex]; cbn; [constructor|]. destruct p as [|v p]; cbn; [constructor|].
    destruct (Nat.eqb k b); cbn; [constructor; auto|apply IH].
Qed.
Lemma dispersion_same_rows lgamma gamma bayes n it l l' : Forall2 (fun a b : mean_row * R => same_but_weight (fst a) (fst b) /\ snd a = snd b) l l' ->
  dispersion_estimate lgamma gamma bayes n it l = dispersion_estimate lgamma gamma bayes n it l' /\
  dispersion_loss lgamma gamma l = dispersion_loss lgamma gamma l'.
Proof.
  intro F. unfold dispersion_estimate, dispersion_loss. cbv zeta. unfold mean_row in *.
  assert (E1 : map (fun e : WholeFit.sample * R * R => {| c_y := x_y (fst (fst e)); c_mu := snd (fst e); c_link := snd e; c_bin := 0 |}) l =
               map (fun e : WholeFit.sample * R * R => {| c_y := x_y (fst (fst e)); c_mu := snd (fst e); c_link := snd e; c_bin := 0 |}) l').
  { induction F as [|a b l l' [(_ & _ & Y & M) L] F IH]; cbn; [auto|]. rewrite IH, Y, M, L. auto. }
  assert (E2 : map (fun e : WholeFit.sample * R * R => (x_y (fst (fst e)), snd (fst e), unlink_func Logit (snd e))) l =
               map (fun e : WholeFit.sample * R * R => (x_y (fst (fst e)), snd (fst e), unlink_func Logit (snd e))) l').
  { clear E1. induction F as [|a b l l' [(_ & _ & Y & M) L] F IH]; [auto|]. cbn [map]. rewrite IH, Y, M, L. auto. }
  rewrite E1, E2. auto.
Qed.
Lemma combine_same D D' : Forall2 same_but_weight D D' -> forall p : list R,
  Forall2 (fun a b => same_but_weight (fst a) (fst b) /\ snd a = snd b) (combine D p) (combine D' p).
Proof. intro F. induction F; intros [|v p]; cbn; constructor; auto. Qed.

Lemma same_totals lex D D' b : positive_weights D -> positive_weights D' -> Forall2 same_but_weight D D' ->
  (bin_total lex (map (fun r => x_w (fst r)) D) b = 0 <-> bin_total lex (map (fun r => x_w (fst r)) D') b = 0).
Proof.
  intros P P' F. enough (E : 0 <= bin_total lex (map (fun r => x_w (fst r)) D) b /\ 0 <= bin_total lex (map (fun r => x_w (fst r)) D') b /\
    (bin_total lex (map (fun r => x_w (fst r)) D) b = 0 <-> bin_total lex (map (fun r => x_w (fst r)) D') b = 0)) by apply E.
  revert lex. induction F as [|x y D D' S F IH]; intros [|k lex]; cbn [map bin_total]; try (split; [lra|split; [lra|tauto]]).
  specialize (IH (fun r I => P r (or_intror I)) (fun r I => P' r (or_intror I)) lex).
  pose proof (P x (or_introl eq_refl)). pose proof (P' y (or_introl eq_refl)).
  destruct (Nat.eqb k b); [|rewrite !Rplus_0_l; exact IH]. destruct IH as (A & B & C). split; [lra|]. split; [lra|]. split; intro; lra.
Qed.
Lemma same_bincounts lex D D' n : positive_weights D -> positive_weights D' -> Forall2 same_but_weight D D' ->
  same_empty (bincounts lex (map (fun r => x_w (fst r)) D) n) (bincounts lex (map (fun r => x_w (fst r)) D') n).
Proof.
  intros P P' F. unfold same_empty, bincounts. induction (seq 0 n) as [|k l IH]; cbn [map]; constructor; auto. now apply same_totals.
Qed.
Theorem dispersion_ignores_weights lgamma gamma bayes n prior gs cfg rate fuel D D' :
  (forall g, In g gs -> ignores_weights g) -> positive_weights D -> positive_weights D' -> Forall2 same_but_weight D D' ->
  dispersion_fit lgamma gamma bayes n prior gs cfg rate fuel D = dispersion_fit lgamma gamma bayes n prior gs cfg rate fuel D'.
Proof.
  intros IG PW PW' F. unfold dispersion_fit, bin_fit, bin_train. cbv zeta. rewrite <- (same_groups D D' F gs 0).
  set (feats := bind_row_groups mean_row (fun r => x_bins (fst r)) D 0 gs).
  assert (E : forall i it p, bin_estimates mean_row (dispersion_estimate lgamma gamma bayes n) feats D i it p =
                             bin_estimates mean_row (dispersion_estimate lgamma gamma bayes n) feats D' i it p).
  { intros i it p. unfold bin_estimates. destruct (nth_error feats i) as [f|]; auto. apply map_ext. intro b.
    apply dispersion_same_rows. apply same_content_rows, F. }
  assert (E1 : (fun i it p => map fst (bin_estimates mean_row (dispersion_estimate lgamma gamma bayes n) feats D i it p)) =
               (fun i it p => map fst (bin_estimates mean_row (dispersion_estimate lgamma gamma bayes n) feats D' i it p))).
  { apply functional_extensionality. intro i. apply functional_extensionality. intro it. apply functional_extensionality. intro p. now rewrite E. }
  assert (E2 : (fun i it p => bin_smoothing mean_row (fun r => x_w (fst r)) (dispersion_estimate lgamma gamma bayes n) gs feats D i it p) =
               (fun i it p => bin_smoothing mean_row (fun r => x_w (fst r)) (dispersion_estimate lgamma gamma bayes n) gs feats D' i it p)).
  { do 5 (apply functional_extensionality; intro). unfold bin_smoothing. destruct (nth_error gs x) as [g|] eqn:G; auto.
    destruct (nth_error feats x) as [f|]; auto. rewrite E. apply IG; [eapply nth_error_In; eauto|]. apply same_bincounts; auto. }
  assert (E3 : (fun p => dispersion_loss lgamma gamma (combine D (p_factors p))) = (fun p => dispersion_loss lgamma gamma (combine D' (p_factors p)))).
  { apply functional_extensionality. intro p. apply (dispersion_same_rows lgamma gamma bayes n 0). apply combine_same, F. }
  rewrite E1, E2, E3.
  rewrite (same_rows_map (fun r => dispersion_start prior (fst r)) D D').
  - replace (length D') with (length D) by (clear -F; induction F; cbn; auto). reflexivity.
  - intros a b (_ & P & _). unfold dispersion_start. rewrite P. auto.
  - exact F.
Qed.
(** Copies of a row change its estimate. *)
Lemma copies_uncertainty lgamma gamma bayes n it (r : mean_row) c k :
  snd (dispersion_estimate lgamma gamma bayes n it (repeat (r, c) (S k))) = 1 / sqrt (INR (S k)).
Proof.
  assert (L : forall k, length (bin_rows (map (fun e : mean_row * R => {| c_y := x_y (fst (fst e)); c_mu := snd (fst e); c_link := snd e; c_bin := 0 |}) (repeat (r, c) k)) 0) = k).
  { induction k0; cbn; auto. }
  transitivity (1 / sqrt (INR (Nat.max 1 (length (bin_rows (map (fun e : mean_row * R => {| c_y := x_y (fst (fst e)); c_mu := snd (fst e); c_link := snd e; c_bin := 0 |}) (repeat (r, c) (S k))) 0))))); [reflexivity|].
  rewrite (L (S k)). reflexivity.
Qed.
Lemma unordered_ignores : ignores_weights {| g_dim := 1; g_hier := false; g_mnl := false; g_smoother := explicit_mean |}.
Proof.
  intros c w w' u v b F. cbn [g_smoother]. unfold explicit_mean, BinSmoothers.cut_unseen.
  assert (E : nth b w 0 = 0 <-> nth b w' 0 = 0). { revert b. induction F; intros [|b]; cbn; auto; tauto. }
  destruct (Reqb (nth b w 0) 0) eqn:A.
  - apply Reqb_iff in A. rewrite (proj2 (Reqb_iff _ _)) by tauto. auto.
  - apply Reqb_false_iff in A. rewrite (proj2 (Reqb_false_iff _ _)) by tauto. reflexivity.
Qed.
