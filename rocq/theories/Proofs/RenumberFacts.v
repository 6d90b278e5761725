(** Training with the bins renumbered. *)
From Coq Require Import ZArith QArith Qround List Bool Reals Lra Lia Permutation FinFun.
From Verif.Model Require Import Num LexBins Train Predict Link Estimators Gbs Regularize WholeFit BinSmoothers.
From Verif.Spec Require Import LexSpec PredictSpec RelabelSpec.
From Verif.Proofs Require Import FnumOrder LexFacts TrainFacts PredictFacts ChainFacts Simulation OrderFacts.
Import ListNotations.
Local Open Scope R_scope.

(** ** Renumbered lists *)
Lemma renumbered_perm {A} n sigma (a b : list A) : bijection n sigma -> renumbered sigma a b -> length a = length b ->
  Permutation a b.
Proof.
  intros (I & _ & _) H L. apply Permutation_sym. apply Permutation_nth_error. split; auto. exists sigma. split; auto.
Qed.

Lemma nth_error_nth_opt {A} (l : list A) k d : nth k l d = match nth_error l k with Some x => x | None => d end.
Proof. revert k. induction l; intros [|k]; cbn; auto. Qed.
Lemma renumbered_nth {A} sigma (a b : list A) k d : renumbered sigma a b -> nth (sigma k) b d = nth k a d.
Proof. intro H. rewrite !nth_error_nth_opt, (H k). auto. Qed.

Lemma bijection_succ n sigma : bijection n sigma -> bijection (S n) sigma.
Proof.
  intros (I & B & F). split; [|split]; auto.
  - intros k H. destruct (Nat.eq_dec k n) as [->|]; [rewrite F; auto|]. specialize (B k ltac:(lia)). lia.
  - intros. apply F. lia.
Qed.

Lemma renumbered_length {A} n sigma (a b : list A) : bijection n sigma -> renumbered sigma a b -> length a = n -> length b = n.
Proof.
  intros (I & B & F) H L.
  destruct (Nat.lt_trichotomy (length b) n) as [C|[C|C]]; auto; exfalso.
  - (* too short: position length b must be hit; use that the last n positions of a are hit *)
    assert (X : forall k, (k < n)%nat -> (sigma k < length b)%nat).
    { intros k Hk. apply nth_error_Some. rewrite (H k). apply nth_error_Some. lia. }
    assert (P : (length (map sigma (seq 0 n)) <= length (seq 0 (length b)))%nat).
    { apply NoDup_incl_length.
      - apply Injective_map_NoDup; auto. apply seq_NoDup.
      - intros x Hx. apply in_map_iff in Hx. destruct Hx as (k & <- & Hk). apply in_seq in Hk. apply in_seq. specialize (X k ltac:(lia)). lia. }
    rewrite map_length, !seq_length in P. lia.
  - assert (X : nth_error b n = None) by (rewrite <- (F n) by lia; rewrite (H n); apply nth_error_None; lia).
    apply nth_error_None in X. lia.
Qed.

Lemma renumbered_map {A B} (f : A -> B) sigma a b : renumbered sigma a b -> renumbered sigma (map f a) (map f b).
Proof. intros H k. rewrite !nth_error_map, (H k). auto. Qed.
Lemma nth_error_map2 {A B C} (f : A -> B -> C) : forall a b k, nth_error (map2 f a b) k =
  match nth_error a k, nth_error b k with Some x, Some y => Some (f x y) | _, _ => None end.
Proof.
  induction a as [|x a IH]; intros [|y b] [|k]; cbn; auto. destruct (nth_error a k); auto.
Qed.
Lemma renumbered_map2 {A B C} (f : A -> B -> C) sigma a b a' b' :
  renumbered sigma a a' -> renumbered sigma b b' -> renumbered sigma (map2 f a b) (map2 f a' b').
Proof. intros H1 H2 k. rewrite !nth_error_map2, (H1 k), (H2 k). auto. Qed.
Lemma nth_error_seq s n k : nth_error (seq s n) k = if Nat.ltb k n then Some (s + k)%nat else None.
Proof.
  revert s k. induction n; intros s [|k]; cbn [seq nth_error]; auto.
  - cbn. f_equal. lia.
  - rewrite IHn. change (Nat.ltb (S k) (S n)) with (Nat.ltb k n). destruct (Nat.ltb k n); auto. f_equal. lia.
Qed.
Lemma renumbered_seq {A} n sigma (h h' : nat -> A) : bijection n sigma -> (forall k, (k < n)%nat -> h' (sigma k) = h k) ->
  renumbered sigma (map h (seq 0 n)) (map h' (seq 0 n)).
Proof.
  intros (I & B & F) H k. rewrite !nth_error_map, !nth_error_seq. destruct (Nat.ltb_spec k n).
  - rewrite (proj2 (Nat.ltb_lt _ _)) by auto. cbn. f_equal. auto.
  - rewrite F by auto. rewrite (proj2 (Nat.ltb_ge _ _)) by auto. auto.
Qed.
Lemma nth_error_firstn {A} n (a : list A) k : nth_error (firstn n a) k = if Nat.ltb k n then nth_error a k else None.
Proof.
  revert a k. induction n; intros a k.
  - cbn. destruct k; auto.
  - destruct a; destruct k; cbn [firstn nth_error]; auto.
    + destruct (Nat.ltb _ _); auto.
    + rewrite IHn. reflexivity.
Qed.
Lemma renumbered_firstn {A} n sigma (a b : list A) : bijection n sigma -> renumbered sigma a b ->
  renumbered sigma (firstn n a) (firstn n b).
Proof.
  intros (I & B & F) H k. rewrite !nth_error_firstn. destruct (Nat.ltb_spec k n).
  - rewrite (proj2 (Nat.ltb_lt _ _)) by auto. apply H.
  - rewrite F by auto. rewrite (proj2 (Nat.ltb_ge _ _)) by auto. auto.
Qed.
Lemma renumbered_snoc {A} n sigma (a b : list A) x : bijection n sigma -> renumbered sigma a b -> length a = n ->
  renumbered sigma (a ++ [x]) (b ++ [x]).
Proof.
  intros Bj H La. pose proof (renumbered_length n sigma a b Bj H La) as Lb. destruct Bj as (I & B & F). intro k.
  destruct (Nat.ltb_spec k n).
  - rewrite !nth_error_app1 by (rewrite ?La, ?Lb; auto). apply H.
  - rewrite F by auto. rewrite !nth_error_app2 by (rewrite ?La, ?Lb; auto). rewrite La, Lb. auto.
Qed.
Lemma sumR_perm a b : Permutation a b -> sumR a = sumR b.
Proof. induction 1; cbn; lra. Qed.
Lemma renumbered_sum n sigma a b : bijection n sigma -> renumbered sigma a b -> length a = n -> sumR a = sumR b.
Proof.
  intros B H L. apply sumR_perm. eapply renumbered_perm; eauto. rewrite (renumbered_length n sigma a b); auto.
Qed.
Lemma map2_len {A B C} (f : A -> B -> C) a b : length a = length b -> length (map2 f a b) = length a.
Proof. revert b. induction a; intros [|y b] H; cbn in *; try discriminate; auto. Qed.
Lemma map2_map_r {A B B' C} (f : A -> B -> C) (g : B' -> B) : forall a b, map2 f a (map g b) = map2 (fun x y => f x (g y)) a b.
Proof. induction a; intros [|y b]; cbn; auto. f_equal; auto. Qed.

(** ** Bin sums *)
Lemma eqb_injective sigma b k : Injective sigma -> Nat.eqb (sigma b) (sigma k) = Nat.eqb b k.
Proof.
  intro I. destruct (Nat.eqb_spec b k) as [->|N]; [apply Nat.eqb_refl|]. apply Nat.eqb_neq. intro E. apply N, I, E.
Qed.
Lemma bin_total_renumbered sigma lex w k : Injective sigma -> bin_total (map sigma lex) w (sigma k) = bin_total lex w k.
Proof.
  intro I. revert w. induction lex as [|b lex IH]; intros [|x w]; cbn; auto. rewrite IH, eqb_injective; auto.
Qed.
Lemma bincounts_renumbered n sigma lex w : bijection n sigma ->
  renumbered sigma (bincounts lex w n) (bincounts (map sigma lex) w n).
Proof. intro B. apply renumbered_seq; auto. intros. apply bin_total_renumbered, B. Qed.
Lemma in_bin_renumbered sigma lex k : Injective sigma -> in_bin (map sigma lex) (sigma k) = in_bin lex k.
Proof.
  intro I. unfold in_bin. induction lex as [|b lex IH]; cbn; auto. rewrite IH, eqb_injective; auto.
Qed.

Section Estimates.
Variables (gm : R -> R) (bppf : R -> R -> R -> R) (erfinv : R -> R).
Variable n : nat.
Variable sigma : nat -> nat.
Hypothesis B : bijection n sigma.
Variables (lex : list nat) (y w : list R).

Lemma calc_renumbered a b a' b' : renumbered sigma a a' -> renumbered sigma b b' ->
  renumbered sigma (fst (calc_factors_and_uncertainties gm a b)) (fst (calc_factors_and_uncertainties gm a' b')) /\
  renumbered sigma (snd (calc_factors_and_uncertainties gm a b)) (snd (calc_factors_and_uncertainties gm a' b')).
Proof.
  intros Ha Hb. unfold calc_factors_and_uncertainties. cbn [fst snd].
  split; [apply renumbered_map2; apply renumbered_map; auto|apply renumbered_map, renumbered_map; auto].
Qed.

Lemma variances_renumbered : renumbered sigma (precalc_variance_y lex n y w) (precalc_variance_y (map sigma lex) n y w).
Proof.
  unfold precalc_variance_y. apply renumbered_seq; auto. intros k _. destruct (variance_prior y w); auto.
  assert (E : squared_residuals (map sigma lex) y w (sigma k) = squared_residuals lex y w k).
  { unfold squared_residuals. rewrite in_bin_renumbered by apply B. rewrite !bin_total_renumbered by apply B. auto. }
  rewrite E. destruct (squared_residuals lex y w k); auto. rewrite bin_total_renumbered by apply B. auto.
Qed.

Lemma estimates_renumbered k score :
  renumbered sigma (estimates gm bppf erfinv k lex n y w score) (estimates gm bppf erfinv k (map sigma lex) n y w score).
Proof.
  destruct k; cbn [estimates].
  - cbv zeta. unfold nbinom_parameters. cbv zeta. apply renumbered_map2; apply calc_renumbered; apply bincounts_renumbered; auto.
  - cbv zeta. unfold poisson_parameters, poisson_precalc. cbv zeta. apply renumbered_map2; apply calc_renumbered; apply bincounts_renumbered; auto.
  - unfold classifier_parameters. cbv zeta. apply renumbered_map2; apply bincounts_renumbered; auto.
  - unfold location_parameters. cbv zeta. pose proof variances_renumbered as V.
    apply renumbered_map2; [exact V|]. unfold calc_factors_generic. apply renumbered_seq; auto. intros j _.
    assert (E : map2 (fun wi b => wi / match nth b (precalc_variance_y (map sigma lex) n y w) None with Some v => v | None => 1 end) w (map sigma lex) =
                map2 (fun wi b => wi / match nth b (precalc_variance_y lex n y w) None with Some v => v | None => 1 end) w lex).
    { rewrite map2_map_r. clear -V. revert lex V. intros lex0 V. generalize (precalc_variance_y lex0 n y w) as v0, (precalc_variance_y (map sigma lex0) n y w) as v1, V.
      clear V. intros v0 v1 V. revert w. induction lex0 as [|b l IH]; intros [|x r]; cbn; auto. rewrite (renumbered_nth sigma _ _ b None V). f_equal. apply IH. }
    rewrite E. rewrite !bin_total_renumbered by apply B. auto.
  - unfold locpoisson_parameters. cbv zeta. apply renumbered_seq; auto. intros j _.
    destruct (weighted_stddev y w); auto. rewrite !bin_total_renumbered by apply B. auto.
  - unfold gbs_parameters. cbv zeta. apply renumbered_seq; auto. intros j _. rewrite !bin_total_renumbered by apply B. auto.
Qed.
End Estimates.

(** ** The training *)
Lemma f_lex_length f : length (f_lex f) = length (f_rows f).
Proof. unfold f_lex, lexicographic_binnos. cbn [fst]. rewrite !map_length. auto. Qed.

Lemma nth_error_ext {A} : forall a b : list A, (forall k, nth_error a k = nth_error b k) -> a = b.
Proof.
  induction a as [|x a IH]; intros [|y b] H; auto.
  - specialize (H 0%nat). discriminate.
  - specialize (H 0%nat). discriminate.
  - pose proof (H 0%nat) as H0. cbn in H0. injection H0 as ->. f_equal. apply IH. intro k. apply (H (S k)).
Qed.

Lemma renumbered_same {A} sigma (a b : list A) : (forall j, sigma j = j) -> renumbered sigma a b -> b = a.
Proof. intros I H. apply nth_error_ext. intro j. rewrite <- (H j), I. reflexivity. Qed.

(** The bins of the second feature are those of the first, renumbered. *)
Record pair (sigma : nat -> nat) (n : nat) (f f' : feature) : Prop := {
  pr_nbins : f_nbins f' = f_nbins f;
  pr_fin : f_finite f = n /\ f_finite f' = n;
  pr_lex : f_lex f' = map sigma (f_lex f) }.

(** ... and perhaps arranged in another shape. *)
Record twin (sigma : nat -> nat) (n : nat) (f f' : feature) : Prop := {
  tw_fin : f_finite f = n /\ f_finite f' = n;
  tw_lex : f_lex f' = map sigma (f_lex f) }.
Lemma pair_twin sigma n f f' : pair sigma n f f' -> twin sigma n f f'.
Proof. intros [H1 H2 H3]. constructor; auto. Qed.
(** The smoother gives the same values for these bins. *)
Definition smooths_alike (sigma : nat -> nat) (n : nat) (f f' : feature) (g : group) : Prop :=
  forall w w' u u' v v' b, length w = n -> length u = n -> length v = n ->
    renumbered sigma w w' -> renumbered sigma u u' -> renumbered sigma v v' -> (b < n)%nat ->
    g_smoother g (arange_multi (f_nbins f')) w' u' v' (sigma b) = g_smoother g (arange_multi (f_nbins f)) w u v b.
Lemma pair_smooths sigma n f f' g : bijection n sigma -> pair sigma n f f' ->
  label_free (g_smoother g) \/ (label_free_but_first (g_smoother g) /\ sigma 0%nat = 0%nat) \/ (forall b, sigma b = b) ->
  smooths_alike sigma n f f' g.
Proof.
  intros Bj P Sm w w' u u' v v' b Lw Lu Lv Rc Ru Rv Hb. rewrite (pr_nbins _ _ _ _ P).
  destruct Sm as [S0|[[S0 Z0]|Id]].
  - eapply (S0 sigma n); eauto.
  - eapply (S0 sigma n); eauto.
  - rewrite (renumbered_same _ _ _ Id Rc), (renumbered_same _ _ _ Id Ru), (renumbered_same _ _ _ Id Rv), Id. reflexivity.
Qed.

Section Renumber.
Variables (gm : R -> R) (bppf : R -> R -> R -> R) (erfinv : R -> R) (bad : R).
Variable k : kind.
Variable prior_column : bool.
Variable gs : list group.
Variable cfg : settings.
Variable rate : nat -> nat -> R.
Variables D D' : list sample.
Variable sig : nat -> nat -> nat.
Variable fin : nat -> nat.
Hypothesis sig_bijection : forall i, bijection (fin i) (sig i).
Hypothesis bind_pair : forall i g, nth_error gs i = Some g -> twin (sig i) (fin i) (bind_group D i g) (bind_group D' i g).
Hypothesis smoothers : forall i g, nth_error gs i = Some g -> smooths_alike (sig i) (fin i) (bind_group D i g) (bind_group D' i g) g.
Hypothesis ys_same : map x_y D' = map x_y D.
Hypothesis ws_same : map x_w D' = map x_w D.
Hypothesis priors_same : map x_prior D' = map x_prior D.
(** Rows to predict that belong to the same bin. *)
Definition rfl (i : nat) (a b : list R) : Prop := length a = S (fin i) /\ renumbered (sig i) a b.
Variable like : nat -> list fnum -> list fnum -> Prop.
Hypothesis like_rowpred : forall i g s t a b row row', nth_error gs i = Some g -> s_agg s = Some a -> s_agg t = Some b -> rfl i a b ->
  like i row row' -> rowpred (store (bind_group D' i g) t) row' = rowpred (store (bind_group D i g) s) row.

Lemma sig_bijection' i : bijection (S (fin i)) (sig i).
Proof. apply bijection_succ, sig_bijection. Qed.

Definition rpl (p q : preds) : Prop := p_factors p = p_factors q.

Lemma rfl_map2 h i a b u v : rfl i a b -> rfl i u v -> rfl i (map2 h a u) (map2 h b v).
Proof. intros [L1 R1] [L2 R2]. split; [rewrite map2_len; congruence|apply renumbered_map2; auto]. Qed.
Lemma rfl_map h i a b : rfl i a b -> rfl i (map h a) (map h b).
Proof. intros [L1 R1]. split; [rewrite map_length; auto|apply renumbered_map; auto]. Qed.
Lemma rfl_length i a b : rfl i a b -> length b = S (fin i).
Proof. intros [L1 R1]. eapply renumbered_length; [apply sig_bijection'| |]; eauto. Qed.
Lemma rfl_sum i a b : rfl i a b -> sumR a = sumR b.
Proof. intros [L1 R1]. eapply renumbered_sum; [apply sig_bijection'| |]; eauto. Qed.

Lemma gather_renumbered i a b l : renumbered (sig i) a b -> gather b (map (sig i) l) = gather a l.
Proof. intro H. unfold gather. rewrite map_map. apply map_ext. intro j. apply renumbered_nth. auto. Qed.

Let calc (E : list sample) := fun (i it : nat) p => map (estimate_value bad) (group_estimates gm bppf erfinv k (bind_groups E 0 gs) (map x_y E) (map x_w E) i p).
Let smth (E : list sample) := fun (i it : nat) p => group_smoother gm bppf erfinv bad k gs (bind_groups E 0 gs) (map x_y E) (map x_w E) i p.
Let calb (E : list sample) := kind_calibration k (bind_groups E 0 gs) (map x_w E).
Let lss (E : list sample) := fun p => kind_loss bad k (map x_y E) (map x_w E) (p_factors p).

Lemma estimates_length lex n y w score : length (estimates gm bppf erfinv k lex n y w score) = n.
Proof.
  destruct k; cbn [estimates]; cbv zeta; unfold nbinom_parameters, poisson_parameters, poisson_precalc, calc_factors_and_uncertainties,
    classifier_parameters, location_parameters, locpoisson_parameters, gbs_parameters, calc_factors_generic, precalc_variance_y, bincounts;
    cbv zeta; cbn [fst snd]; repeat (rewrite ?map2_len, ?map_length, ?seq_length; auto).
Qed.

Lemma group_estimates_renumbered i g p q : nth_error gs i = Some g -> rpl p q ->
  length (group_estimates gm bppf erfinv k (bind_groups D 0 gs) (map x_y D) (map x_w D) i p) = S (fin i) /\
  renumbered (sig i) (group_estimates gm bppf erfinv k (bind_groups D 0 gs) (map x_y D) (map x_w D) i p)
                     (group_estimates gm bppf erfinv k (bind_groups D' 0 gs) (map x_y D') (map x_w D') i q).
Proof.
  intros G E. unfold group_estimates. rewrite !(bind_nth gs 0 i g G). cbn [Nat.add].
  pose proof (bind_pair i g G) as P. destruct (tw_fin _ _ _ _ P) as [F1 F2].
  rewrite (tw_lex _ _ _ _ P), F1, F2, ys_same, ws_same, <- E.
  split; [apply estimates_length|]. apply estimates_renumbered. apply sig_bijection'.
Qed.

Lemma centred_renumbered n i a b u v : bijection n (sig i) -> length a = n -> length u = n ->
  renumbered (sig i) a b -> renumbered (sig i) u v -> renumbered (sig i) (centred a u) (centred b v).
Proof.
  intros Bj La Lu Ra Ru. unfold centred.
  rewrite <- (renumbered_sum n (sig i) u v Bj Ru Lu).
  rewrite <- (renumbered_sum n (sig i) (map2 Rmult a u) (map2 Rmult b v) Bj) by
    (try apply renumbered_map2; auto; rewrite map2_len; congruence).
  apply renumbered_map. auto.
Qed.
Lemma removelast_firstn_len {A} (l : list A) n : length l = S n -> removelast l = firstn n l.
Proof. intro L. rewrite removelast_firstn_len, L. auto. Qed.

Lemma calibration_renumbered i g a b : nth_error gs i = Some g -> rfl i a b -> rfl i (calb D i a) (calb D' i b).
Proof.
  intros G [La Ra]. unfold calb, kind_calibration. destruct k; try (split; auto; fail).
  unfold location_calibration. rewrite !(bind_nth gs 0 i g G). cbn [Nat.add].
  pose proof (bind_pair i g G) as P. destruct (tw_fin _ _ _ _ P) as [F1 F2].
  rewrite (tw_lex _ _ _ _ P), F1, F2, ws_same. cbn [f_mnl bind_group].
  pose proof (bincounts_renumbered (S (fin i)) (sig i) (f_lex (bind_group D i g)) (map x_w D) (sig_bijection' i)) as Rc.
  assert (Lc : length (bincounts (f_lex (bind_group D i g)) (map x_w D) (S (fin i))) = S (fin i)) by (unfold bincounts; rewrite map_length, seq_length; auto).
  set (c := bincounts (f_lex (bind_group D i g)) _ _) in *. set (c' := bincounts (map (sig i) _) _ _) in *.
  pose proof (rfl_length i a b (conj La Ra)) as Lb. pose proof (rfl_length i c c' (conj Lc Rc)) as Lc'.
  unfold calibrate. destruct (g_mnl g).
  - rewrite !(removelast_firstn_len _ (fin i)) by auto.
    assert (Lf : length (centred (firstn (fin i) a) (firstn (fin i) c)) = fin i) by (unfold centred; rewrite map_length, firstn_length; lia).
    split; [rewrite app_length, Lf; cbn; lia|]. eapply renumbered_snoc; [apply sig_bijection| |exact Lf].
    apply (centred_renumbered (fin i)); [apply sig_bijection|rewrite firstn_length; lia|rewrite firstn_length; lia| |]; apply renumbered_firstn; auto; apply sig_bijection.
  - split; [unfold centred; rewrite map_length; auto|]. apply (centred_renumbered (S (fin i))); auto. apply sig_bijection'.
Qed.

Lemma smoother_renumbered i g p q it v v' b : nth_error gs i = Some g -> rpl p q -> length v = fin i -> renumbered (sig i) v v' -> (b < fin i)%nat ->
  smth D' i it q v' (sig i b) = smth D i it p v b.
Proof.
  intros G E Lv Rv Hb. unfold smth, group_smoother. rewrite G, !(bind_nth gs 0 i g G). cbn [Nat.add].
  pose proof (bind_pair i g G) as P. destruct (tw_fin _ _ _ _ P) as [F1 F2].
  destruct (group_estimates_renumbered i g p q G E) as [Le Re].
  rewrite (tw_lex _ _ _ _ P), F1, F2. rewrite ws_same.
  pose proof (sig_bijection i) as Bj.
  assert (Rc : renumbered (sig i) (bincounts (f_lex (bind_group D i g)) (map x_w D) (fin i)) (bincounts (map (sig i) (f_lex (bind_group D i g))) (map x_w D) (fin i)))
    by (apply bincounts_renumbered; auto).
  assert (Lc : length (bincounts (f_lex (bind_group D i g)) (map x_w D) (fin i)) = fin i) by (unfold bincounts; rewrite map_length, seq_length; auto).
  assert (Ru : renumbered (sig i) (firstn (fin i) (map (estimate_uncertainty bad) (group_estimates gm bppf erfinv k (bind_groups D 0 gs) (map x_y D) (map x_w D) i p)))
     (firstn (fin i) (map (estimate_uncertainty bad) (group_estimates gm bppf erfinv k (bind_groups D' 0 gs) (map x_y D') (map x_w D') i q))))
    by (apply renumbered_firstn; auto; apply renumbered_map; auto).
  assert (Lu : length (firstn (fin i) (map (estimate_uncertainty bad) (group_estimates gm bppf erfinv k (bind_groups D 0 gs) (map x_y D) (map x_w D) i p))) = fin i)
    by (rewrite firstn_length, map_length, Le; lia).
  rewrite ws_same in Ru.
  apply (smoothers i g G); auto.
Qed.

Lemma new_renumbered i g s t it p q : nth_error gs i = Some g -> RS rfl i s t -> rpl p q ->
  rfl i (fst (new_factors (calc D) (smth D) (calb D) rate i (bind_group D i g) s it p))
        (fst (new_factors (calc D') (smth D') (calb D') rate i (bind_group D' i g) t it q)) /\
  rfl i (snd (new_factors (calc D) (smth D) (calb D) rate i (bind_group D i g) s it p))
        (snd (new_factors (calc D') (smth D') (calb D') rate i (bind_group D' i g) t it q)).
Proof.
  intros G Sr E. unfold new_factors. cbv zeta. cbn [fst snd].
  destruct (group_estimates_renumbered i g p q G E) as [Le Re].
  assert (C : rfl i (calc D i it p) (calc D' i it q)) by (unfold calc; split; [rewrite map_length; auto|apply renumbered_map; auto]).
  split; auto. apply (calibration_renumbered i g); auto.
  pose proof (bind_pair i g G) as P. destruct (tw_fin _ _ _ _ P) as [F1 F2]. rewrite F1, F2, <- (rs_zero _ _ _ _ Sr). cbn [f_mnl bind_group].
  destruct C as [Lc Rc]. pose proof (sig_bijection i) as Bj.
  assert (Nn : nth (fin i) (calc D' i it q) 0 = nth (fin i) (calc D i it p) 0).
  { rewrite <- (proj2 (proj2 Bj) (fin i)) at 1 by auto. apply renumbered_nth. auto. }
  rewrite Nn. split; [rewrite app_length, map_length, seq_length; cbn; lia|].
  apply (renumbered_snoc (fin i)); [auto| |rewrite map_length, seq_length; auto].
  apply renumbered_seq; auto. intros b Hb. destruct (s_zero s); auto.
  rewrite (smoother_renumbered i g p q it (firstn (fin i) (calc D i it p)) (firstn (fin i) (calc D' i it q)) b); auto.
  - rewrite firstn_length. lia.
  - apply renumbered_firstn; auto.
Qed.

Lemma rgl_renumbered : forall hs i, (forall j, nth_error hs j = nth_error gs (i + j)) ->
  RGL (calc D) (calc D') (smth D) (smth D') (calb D) (calb D') rate rate rpl rfl i (bind_groups D i hs) (bind_groups D' i hs).
Proof.
  induction hs as [|g hs IH]; intros i H; cbn [bind_groups]; constructor.
  - assert (G : nth_error gs i = Some g) by (pose proof (H 0%nat) as X; rewrite Nat.add_0_r in X; rewrite <- X; auto).
    pose proof (bind_pair i g G) as P. destruct (tw_fin _ _ _ _ P) as [F1 F2].
    constructor; try reflexivity.
    + rewrite F1, F2. split; [apply repeat_length|].
      assert (X : forall n, zeros n = map (fun _ => 0) (seq 0 n)).
      { intro n. unfold zeros. generalize 0%nat. induction n; intros; cbn; f_equal; auto. }
      rewrite X. apply renumbered_seq; auto. apply sig_bijection'.
    + intros p q v u E [Lv Rv]. unfold rpl in *. change (f_ext (bind_group D i g)) with false. change (f_ext (bind_group D' i g)) with false.
      cbn [add_preds p_factors]. rewrite (tw_lex _ _ _ _ P), (gather_renumbered i v u); auto. congruence.
    + intros p q v u E [Lv Rv]. unfold rpl in *. change (f_ext (bind_group D i g)) with false. change (f_ext (bind_group D' i g)) with false.
      cbn [sub_preds p_factors]. rewrite (tw_lex _ _ _ _ P), (gather_renumbered i v u); auto. congruence.
    + intros s t it p q Sr E. apply new_renumbered; auto.
  - apply IH. intro j. pose proof (H (S j)) as X. cbn in X. rewrite X. f_equal. lia.
Qed.

Lemma train_renumbered fuel scale offset :
  ROO rpl rfl (train gm bppf erfinv bad k prior_column gs cfg rate fuel D scale offset)
              (train gm bppf erfinv bad k prior_column gs cfg rate fuel D' scale offset).
Proof.
  unfold train. cbv zeta. apply sim_fit.
  - apply (rgl_renumbered gs 0). intro. auto.
  - intros p q E. unfold rpl in E. rewrite E, ys_same, ws_same. auto.
  - intros. apply rfl_map2; auto.
  - intros. apply rfl_map2; auto.
  - intros i a b u v H1 H2. unfold mean. pose proof (rfl_map Rabs i _ _ (rfl_map2 Rminus i a b u v H1 H2)) as M. fold vsub in M.
    rewrite (rfl_sum _ _ _ M). rewrite (rfl_length _ _ _ M). destruct M as [-> _]. auto.
  - intros _ i a b H. split; apply rfl_map; auto.
  - intros _ i f g a b u v E1 E2 H1 H2. unfold clip_absolute, factor_limits. rewrite E1, E2.
    destruct (f_ext g); destruct (Nat.eqb (f_dim g) 1); apply rfl_map2; auto.
  - intros _ i a b u v H1 H2. apply rfl_map2; auto.
  - unfold rpl. cbn [p_factors]. unfold prior_predictions, linked_column. rewrite priors_same. rewrite <- (map_length x_y D'), ys_same, map_length. auto.
Qed.

(** *** Predictions. *)
Definition alike (x x' : sample) : Prop := x_prior x' = x_prior x /\ forall i g, nth_error gs i = Some g -> like i (x_bins x i) (x_bins x' i).

Lemma predict_renumbered : forall hs i, (forall j, nth_error hs j = nth_error gs (i + j)) -> forall sl tl, RSL rfl i sl tl ->
  (forall s, In s sl -> s_agg s <> None) -> forall X X' p q, Forall2 alike X X' -> rpl p q ->
  rpl (predict_from i (map2 store (bind_groups D i hs) sl) p (map x_bins X))
      (predict_from i (map2 store (bind_groups D' i hs) tl) q (map x_bins X')).
Proof.
  induction hs as [|g hs IH]; intros i H sl tl R Ag X X' p q W E; cbn [bind_groups map2 predict_from]; auto.
  inversion R as [|? s t sl' tl' Rs Rl]; subst; cbn [predict_from]; auto.
  assert (G : nth_error gs i = Some g) by (pose proof (H 0%nat) as Y; rewrite Nat.add_0_r in Y; rewrite <- Y; auto).
  apply IH; auto.
  - intro j. pose proof (H (S j)) as Y. cbn in Y. rewrite Y. f_equal. lia.
  - intros r I. apply Ag. right. auto.
  - unfold rpl in *. change (m_ext (store (bind_group D i g) s)) with false. change (m_ext (store (bind_group D' i g) t)) with false.
    cbn [add_preds p_factors]. rewrite E. f_equal. rewrite !predict_factors_rowpred, !map_map.
    pose proof (rs_agg _ _ _ _ Rs) as A. unfold RA in A. pose proof (Ag s (or_introl eq_refl)) as As.
    destruct (s_agg s) as [a|] eqn:Ea; [|congruence]. destruct (s_agg t) as [b|] eqn:Eb; [|contradiction].
    clear -W G A Ea Eb like_rowpred. induction W as [|x x' X X' [_ Hx] _ IW]; cbn [map]; [reflexivity|]. f_equal; [|exact IW].
    symmetry. apply (like_rowpred i g s t a b); eauto.
Qed.

Lemma finish_agg ini st st' : finish ini st = Ok st' -> forall s, In s (t_feats st') -> s_agg s <> None.
Proof.
  unfold finish. destruct (forallb _ (t_feats st)) eqn:F; [|discriminate].
  match goal with |- context [if ?c then Raise ConvergenceError else _] => destruct c end; [discriminate|].
  intros E s I. injection E as <-. rewrite forallb_forall in F. specialize (F s I). destruct (s_agg s); congruence.
Qed.
Lemma train_agg fuel E scale offset st : train gm bppf erfinv bad k prior_column gs cfg rate fuel E scale offset = Some (Ok st) ->
  forall s, In s (t_feats st) -> s_agg s <> None.
Proof.
  unfold train, fit_main. cbv zeta. match goal with |- loop _ _ _ _ _ _ _ _ ?x ?y = _ -> _ => generalize x, y end.
  induction fuel as [|fuel IH]; intros ini a H; cbn [loop] in H; destruct (continues cfg a); try discriminate.
  - injection H as H. eapply finish_agg; eauto.
  - destruct (iteration _ _ _ _ _ _ _ _ _) as [b|e]; [|discriminate]. eapply IH; eauto.
  - injection H as H. eapply finish_agg; eauto.
Qed.

Theorem twin_fit fuel :
  match whole_fit gm bppf erfinv bad k prior_column gs cfg rate fuel D, whole_fit gm bppf erfinv bad k prior_column gs cfg rate fuel D' with
  | Trained m, Trained m' =>
      o_scale m' = o_scale m /\ o_offset m' = o_offset m /\ o_iterations m' = o_iterations m /\ o_loss m' = o_loss m /\
      forall X X', Forall2 alike X X' -> whole_predict k prior_column m' X' = whole_predict k prior_column m X
  | r, r' => r = r'
  end.
Proof.
  unfold whole_fit. rewrite ys_same, ws_same, priors_same. destruct (kind_scale k _ _) as [scale|]; [|reflexivity]. cbv zeta.
  set (offset := kind_offset k scale _ _).
  pose proof (train_renumbered fuel scale offset) as R. pose proof (train_agg fuel D scale offset) as Ag.
  destruct (train _ _ _ _ _ _ _ _ _ _ D _ _) as [[a|e]|], (train _ _ _ _ _ _ _ _ _ _ D' _ _) as [[b|e']|]; cbn in R; try contradiction; try reflexivity.
  - cbn [o_scale o_offset o_iterations o_loss]. do 2 (split; auto).
    split; [symmetry; apply (rt_iter _ _ _ _ R)|]. split; [symmetry; apply (rt_loss _ _ _ _ R)|].
    intros X X' W. unfold whole_predict, cb_predict. cbn [o_scale o_offset o_groups]. f_equal. symmetry.
    apply (predict_renumbered gs 0); auto.
    + apply (rt_feats _ _ _ _ R).
    + apply (Ag a eq_refl).
    + assert (EX : map x_prior X = map x_prior X') by (clear -W; induction W as [|x x' ? ? [Hx _]]; cbn [map]; congruence).
      unfold rpl. cbn [p_factors]. unfold linked_column. rewrite !map_length, EX.
      replace (length X') with (length X) by (rewrite <- (map_length x_prior X), EX, map_length; reflexivity). reflexivity.
  - cbn. congruence.
Qed.
End Renumber.

Theorem renumber_fit gm bppf erfinv bad k prior_column gs cfg rate D D' sig fin :
  (forall i, bijection (fin i) (sig i)) ->
  (forall i g, nth_error gs i = Some g -> pair (sig i) (fin i) (bind_group D i g) (bind_group D' i g)) ->
  (forall i g, nth_error gs i = Some g ->
     label_free (g_smoother g) \/ (label_free_but_first (g_smoother g) /\ sig i 0%nat = 0%nat) \/ (forall b, sig i b = b)) ->
  map x_y D' = map x_y D -> map x_w D' = map x_w D -> map x_prior D' = map x_prior D ->
  forall like : nat -> list fnum -> list fnum -> Prop,
  (forall i g s t a b row row', nth_error gs i = Some g -> s_agg s = Some a -> s_agg t = Some b -> rfl sig fin i a b ->
     like i row row' -> rowpred (store (bind_group D' i g) t) row' = rowpred (store (bind_group D i g) s) row) ->
  forall fuel,
  match whole_fit gm bppf erfinv bad k prior_column gs cfg rate fuel D, whole_fit gm bppf erfinv bad k prior_column gs cfg rate fuel D' with
  | Trained m, Trained m' =>
      o_scale m' = o_scale m /\ o_offset m' = o_offset m /\ o_iterations m' = o_iterations m /\ o_loss m' = o_loss m /\
      forall X X', Forall2 (alike gs like) X X' -> whole_predict k prior_column m' X' = whole_predict k prior_column m X
  | r, r' => r = r'
  end.
Proof.
  intros Bj P Sm Ey Ew Ep like Hl fuel. apply (twin_fit gm bppf erfinv bad k prior_column gs cfg rate D D' sig fin); auto.
  - intros i g G. apply pair_twin. auto.
  - intros i g G. apply pair_smooths; auto.
Qed.
