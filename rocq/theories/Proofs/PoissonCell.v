(** What a single feature group of the Poisson regressor learns without smoothing. *)
From Coq Require Import ZArith QArith Qround List Bool Reals Lia Lra Psatz.
From Verif.Model Require Import Num LexBins Train Predict Link Estimators Regularize BinSmoothers WholeFit.
From Verif.Spec Require Import TrainSpec DataSpec LexSpec PredictSpec EstimatorSpec InsampleSpec CellSpec ConstantSpec PoissonCellSpec.
From Verif.Proofs Require Import TrainFacts TrainBounds TrainExamples MonotoneTrain LexFacts PredictFacts ImportanceFacts LinkFacts EstimatorFacts PipeMonotone InsampleFacts TotalFacts DescentFacts CellFacts ConstantFacts PosteriorSteps.
Import ListNotations.
Local Open Scope R_scope.

(** ** Cells exist *)
Definition cellb (a b : list fnum) : bool :=
  if row_finite_semi_positive a then row_finite_semi_positive b && (if list_eq_dec Z.eq_dec (map floor_of a) (map floor_of b) then true else false)
  else negb (row_finite_semi_positive b).
Lemma cellb_spec a b : (forall x, In x a -> whole x) -> (forall x, In x b -> whole x) -> cellb a b = true <-> same_cell a b.
Proof.
  intros Wa Wb. unfold cellb. destruct (row_finite_semi_positive a) eqn:Sa, (row_finite_semi_positive b) eqn:Sb; cbn [andb negb].
  - destruct (list_eq_dec _ _ _) as [E|E]; split; intro H; try discriminate; try reflexivity.
    + left. exists (map floor_of a). split; [apply whole_holds; auto|rewrite E; apply whole_holds; auto].
    + destruct H as [(t & A & B)|(M & _)]; [|apply semi_positive_iff in M; congruence].
      exfalso. apply E. rewrite (floors_holds _ _ A), (floors_holds _ _ B). reflexivity.
  - split; [discriminate|]. intros [(t & A & B)|(M & _)]; [rewrite (semi_of_holds _ _ _ A B) in Sa|apply semi_positive_iff in M]; congruence.
  - split; [discriminate|]. intros [(t & A & B)|(_ & M)]; [rewrite (semi_of_holds _ _ _ A B) in Sa|apply semi_positive_iff in M]; congruence.
  - split; [|reflexivity]. intros _. right. split; apply semi_positive_iff; assumption.
Qed.

Lemma bin_sum_member lex v k j : (forall i, row_in lex k i -> 0 <= v i) -> row_in lex k j -> v j <= bin_sum lex v k.
Proof.
  intros P J. assert (E : bin_sum lex (fun i => if Nat.eqb i j then v j else 0) k <= bin_sum lex v k).
  { apply bin_sum_le. intros i I. destruct (Nat.eqb_spec i j) as [->|_]; [lra|apply P; exact I]. }
  assert (E2 : bin_sum lex (fun i => if Nat.eqb i j then v j else 0) k = v j); [|lra]. clear E P.
  unfold row_in in J. generalize (v j) as x. clear v. intro x. revert j J. induction lex as [|b lex IH]; intros [|j] J; cbn in J; try discriminate.
  - injection J as ->. rewrite bin_sum_cons, Nat.eqb_refl. cbn [Nat.eqb].
    assert (Z : bin_sum lex (fun _ => 0 * 1) k = 0) by (rewrite (bin_sum_scal lex 0 (fun _ => 1)); ring).
    rewrite (bin_sum_ext lex _ (fun _ => 0 * 1)) by (intros; cbn; ring). rewrite Z. ring.
  - rewrite bin_sum_cons. cbn [Nat.eqb]. rewrite (IH j J). destruct (Nat.eqb b k); ring.
Qed.
Lemma bin_sum_null lex u v k : (forall i, row_in lex k i -> 0 <= u i) -> bin_sum lex u k = 0 -> bin_sum lex (fun i => u i * v i) k = 0.
Proof.
  intros P Z. rewrite (DescentFacts.bin_sum_ext_in lex _ (fun i => 0 * 1)).
  - rewrite (bin_sum_scal lex 0 (fun _ => 1)). ring.
  - intros i I. pose proof (P i I). pose proof (bin_sum_member lex u k i P I). assert (E : u i = 0) by lra. rewrite E. ring.
Qed.

Lemma forall2_fst D : Forall (fun s => 0 <= x_w s /\ 0 <= x_y s) D -> Forall (fun s => 0 <= x_w s) D.
Proof. apply Forall_impl. tauto. Qed.

(** Squared deviations of predictions that are constant in each bin. *)
Lemma squares_rows D : forall P, length P = length D ->
  squares D P = sumR (map (fun j => nth j (map x_w D) 0 * (nth j P 0 - nth j (map x_y D) 0) ^ 2) (seq 0 (length D))).
Proof.
  induction D as [|s D IH]; intros [|p P] L; cbn in L; try discriminate; [reflexivity|].
  cbn [squares length seq map sumR nth]. rewrite IH by lia. rewrite <- seq_shift, map_map. reflexivity.
Qed.
Lemma squares_cells D lex n V P : length lex = length D -> (forall b, In b lex -> (b < n)%nat) -> length P = length D ->
  (forall j, (j < length D)%nat -> nth j P 0 = V (nth j lex 0%nat)) ->
  squares D P = sumR (map (fun b => bin_sum lex (at_row (map x_w D)) b * V b ^ 2
     - 2 * bin_sum lex (fun j => nth j (map x_w D) 0 * nth j (map x_y D) 0) b * V b
     + bin_sum lex (fun j => nth j (map x_w D) 0 * nth j (map x_y D) 0 ^ 2) b) (seq 0 n)).
Proof.
  intros L B LP H. rewrite squares_rows by exact LP.
  set (q := map (fun j => nth j (map x_w D) 0 * (nth j P 0 - nth j (map x_y D) 0) ^ 2) (seq 0 (length D))).
  assert (Lq : per_row lex q) by (unfold per_row, q; rewrite map_length, seq_length; lia).
  rewrite (partition lex q n Lq B). apply sumR_ext. intros b _.
  rewrite (DescentFacts.bin_sum_ext_in lex _ (fun j => V b ^ 2 * nth j (map x_w D) 0 + ((- 2 * V b) * (nth j (map x_w D) 0 * nth j (map x_y D) 0)
     + nth j (map x_w D) 0 * nth j (map x_y D) 0 ^ 2))).
  - rewrite (bin_sum_plus lex (fun j => V b ^ 2 * nth j (map x_w D) 0)), (bin_sum_plus lex (fun j => (- 2 * V b) * _)), (bin_sum_scal lex (V b ^ 2)), (bin_sum_scal lex (- 2 * V b)). ring.
  - intros j J. pose proof (row_in_lt _ _ _ J) as Jl. unfold q. rewrite (nth_map_lt _ _ j 0%nat) by (rewrite seq_length; lia). rewrite seq_nth by lia. cbn [plus].
    rewrite H by lia. rewrite (nth_error_nth lex j 0%nat J). ring.
Qed.

Section Rows.
Variables (g : group) (D : list sample).
Hypothesis HP : poisson_data g D.
Notation y := (map x_y D).
Notation w := (map x_w D).
Notation f := (bind_group D 0 g).
Notation lex := (f_lex f).
Notation nb := (S (f_finite f)).
Lemma HB : binned_rows [g] D. Proof. exact (proj1 HP). Qed.
Lemma HWY : Forall (fun s => 0 <= x_w s /\ 0 <= x_y s) D. Proof. exact (proj1 (proj2 HP)). Qed.
Lemma wn : EstimatorSpec.nonneg w.
Proof. intros x I. apply in_map_iff in I. destruct I as (s & <- & I). pose proof HWY as H. rewrite Forall_forall in H. apply H; exact I. Qed.
Lemma yn : EstimatorSpec.nonneg y.
Proof. intros x I. apply in_map_iff in I. destruct I as (s & <- & I). pose proof HWY as H. rewrite Forall_forall in H. apply H; exact I. Qed.
Lemma lex_bound b : In b lex -> (b < nb)%nat.
Proof. apply f_lex_bound; [exact (Hdim1 g D HB)|exact (rows_len g D HB)]. Qed.
Lemma lexl : length lex = length D. Proof. apply lex_len. Qed.

Definition bw (b : nat) : R := bin_sum lex (at_row w) b.
Definition by_ (b : nat) : R := bin_sum lex (fun j => nth j w 0 * nth j y 0) b.

Lemma cell_bin j s cell : nth_error D j = Some s -> cell_of D s cell ->
  cell_weight cell D = bw (nth j lex 0%nat) /\ cell_sum cell (fun s => x_w s * x_y s) D = by_ (nth j lex 0%nat).
Proof.
  intros E C.
  assert (K : forall i s', nth_error D i = Some s' -> cell s' = true <-> nth i lex 0%nat = nth j lex 0%nat).
  { intros i s' Ei. rewrite (C s' (nth_error_In _ _ Ei)).
    pose proof (lex_same f (Hdim1 g D HB) (rows_len g D HB) (rows_whole g D HB) j i _ _ (row_at g D j s E) (row_at g D i s' Ei)) as LS. split.
    - intro S. symmetry. apply LS. exact S.
    - intro S. apply LS. symmetry. exact S. }
  split; [unfold cell_weight|]; rewrite (cell_sum_bin cell _ D lex (nth j lex 0%nat) lexl K).
  - reflexivity.
  - unfold by_. apply bin_sum_ext. intros i I. rewrite lexl in I.
    destruct (nth_error D i) as [s'|] eqn:Ei; [|apply nth_error_None in Ei; lia].
    rewrite (nth_error_nth (map x_w D) i 0 (map_nth_error x_w i D Ei)), (nth_error_nth (map x_y D) i 0 (map_nth_error x_y i D Ei)).
    apply nth_error_nth. exact (map_nth_error (fun s => x_w s * x_y s) i D Ei).
Qed.

Lemma bw_nonneg b : 0 <= bw b.
Proof. apply bin_sum_nonneg. intros j _. apply nonneg_at, wn. Qed.
Lemma by_nonneg b : 0 <= by_ b.
Proof. apply bin_sum_nonneg. intros j _. apply Rmult_le_pos; apply nonneg_at; [apply wn|apply yn]. Qed.
Lemma by_null b : bw b = 0 -> by_ b = 0.
Proof. intro Z. unfold by_. apply (bin_sum_null lex (at_row w) (at_row y)); [intros; apply nonneg_at, wn|exact Z]. Qed.

Lemma bw_full b : bw b = 0 \/ 1 <= bw b.
Proof.
  destruct (in_dec Nat.eq_dec b lex) as [I|N].
  - apply (In_nth _ _ 0%nat) in I. destruct I as (j & J & <-). rewrite lexl in J.
    destruct (nth_error D j) as [s|] eqn:E; [|apply nth_error_None in E; lia].
    set (cell := fun s' => cellb (x_bins s 0%nat) (x_bins s' 0%nat)).
    assert (C : cell_of D s cell).
    { intros s' I. apply cellb_spec; intros x X; eapply (proj2 (proj2 HB)); [exact (nth_error_In _ _ E)|exact X|exact I|exact X]. }
    destruct (cell_bin j s cell E C) as (<- & _). destruct HP as (_ & _ & _ & F & _). exact (F s cell (nth_error_In _ _ E) C).
  - left. apply bin_sum_empty. intros j J. apply N. apply (nth_error_In _ _ J).
Qed.

(** ** Sums *)
Lemma sum_bw : sumR (map bw (seq 0 nb)) = total_weight D.
Proof. unfold bw. rewrite <- weights_sum. symmetry. apply partition; [unfold per_row; rewrite map_length, lexl; reflexivity|exact lex_bound]. Qed.
Lemma total_target_sum : total_target D = sumR (map2 Rmult w y).
Proof. clear. unfold total_target. induction D as [|s r IH]; cbn; [reflexivity|]. rewrite IH. reflexivity. Qed.
Lemma sum_by : sumR (map by_ (seq 0 nb)) = total_target D.
Proof.
  rewrite total_target_sum. symmetry. rewrite (partition lex (map2 Rmult w y) nb); [|unfold per_row; rewrite map2_length, map_length, lexl; rewrite ?map_length; reflexivity|exact lex_bound].
  apply sumR_ext. intros b _. unfold by_. apply bin_sum_ext. intros j J. rewrite lexl in J. rewrite nth_map2; rewrite ?map_length; auto.
Qed.
Lemma member_le (u : nat -> R) l b : (forall x, 0 <= u x) -> In b l -> u b <= sumR (map u l).
Proof.
  intros P. induction l as [|a l IH]; intros []; cbn [map sumR].
  - subst a. assert (0 <= sumR (map u l)) by (apply sumR_nonneg_list; intros v V; apply in_map_iff in V; destruct V as (? & <- & _); apply P). lra.
  - pose proof (IH H). pose proof (P a). lra.
Qed.
Lemma bw_total b : (b < nb)%nat -> bw b <= total_weight D.
Proof. intro H. rewrite <- sum_bw. apply member_le; [exact bw_nonneg|apply in_seq; lia]. Qed.
Lemma by_total b : (b < nb)%nat -> by_ b <= total_target D.
Proof. intro H. rewrite <- sum_by. apply member_le; [exact by_nonneg|apply in_seq; lia]. Qed.

End Rows.

Section Single.
Variables (gm : R -> R) (bppf : R -> R -> R -> R) (erfinv : R -> R) (bad : R).
Variables (g : group) (cfg : settings) (rate : nat -> nat -> R) (D : list sample).
Hypothesis HM : median_near gm.
Hypothesis HP : poisson_data g D.
Notation y := (map x_y D).
Notation w := (map x_w D).
Notation f := (bind_group D 0 g).
Notation kd := PoissonRegressor.
Notation calc := (fun i (_ : nat) p => map (estimate_value bad) (group_estimates gm bppf erfinv kd [f] y w i p)).
Notation smooth := (fun i (_ : nat) p => group_smoother gm bppf erfinv bad kd [g] [f] y w i p).
Notation loss := (fun p => kind_loss bad kd y w (p_factors p)).
Notation nf := (new_factors calc smooth (kind_calibration kd [f] w) rate).
Notation lex := (f_lex f).
Notation nb := (S (f_finite f)).
Notation start scale := {| p_factors := repeat scale (length D); p_exponents := zeros (length D) |}.

(** ** The baseline *)
Variable sc : R.
Hypothesis Hsc : kind_scale kd y w = Some sc.
Lemma baseline_value : exp sc * total_weight D = total_target D + total_weight D / 1000 /\ 0 < total_weight D.
Proof.
  cbn in Hsc. unfold global_scale in Hsc. destruct (weighted_mean y w) as [m|] eqn:E; [|discriminate].
  pose proof (unlink_link Log _ _ Hsc) as U. cbn [unlink_func] in U. rewrite U.
  unfold weighted_mean in E. destruct (Reqb (sumR w) 0) eqn:Z; [discriminate|]. apply Reqb_false_iff in Z. injection E as <-.
  rewrite weights_sum in *. rewrite (total_target_sum D).
  assert (C : sumR (map2 Rmult y w) = sumR (map2 Rmult w y)).
  { clear. induction D as [|s r IH]; cbn; [reflexivity|]. rewrite IH. ring. }
  rewrite C. split; [field; exact Z|].
  assert (0 <= total_weight D) by (rewrite <- weights_sum; apply sumR_nonneg_list; exact (wn g D HP)). lra.
Qed.
Lemma weight_baseline b : (b < nb)%nat -> (bw g D) b * exp sc <= total_target D + total_weight D.
Proof.
  intro H. destruct baseline_value as (A & B). pose proof ((bw_total g D HP) b H). pose proof (exp_pos sc).
  assert ((bw g D) b * exp sc <= total_weight D * exp sc) by (apply Rmult_le_compat_r; lra). lra.
Qed.

(** ** One bin *)
Notation b0 := gamma_beta_prior.
Definition G (b : nat) : R := gm ((by_ g D) b + gamma_alpha_prior).
Notation lo := (ln (fst (factor_limits f))).
Notation hi := (ln (snd (factor_limits f))).
Notation learned b := (f_mnl f && Nat.eqb b (f_finite f) = false).
Notation rt := (fun n => rate n 0%nat).
Definition level (n b : nat) : R :=
  if f_mnl f && Nat.eqb b (f_finite f) then sc else lev (G b) b0 ((bw g D) b) sc lo hi rt n.

Lemma lim_pos : 0 < fst (factor_limits f) <= 1/10 /\ 100 <= snd (factor_limits f).
Proof. unfold factor_limits. cbn [f_ext bind_group]. destruct (Nat.eqb _ 1); cbn [fst snd]; lra. Qed.
Lemma lims : lo <= ln (1/2) /\ ln 2 <= hi /\ lo <= 0 /\ 0 <= hi.
Proof.
  destruct lim_pos as ((A & B) & C). destruct ln_facts as ((E & _) & F & _).
  assert (lo <= ln (1/2)) by (apply ln_le_mono; lra). assert (ln 2 <= hi) by (apply ln_le_mono; lra). lra.
Qed.
Lemma G_near b : (by_ g D) b - 12/1000 <= G b - b0 <= (by_ g D) b + 1/1000.
Proof. unfold G, gamma_alpha_prior, gamma_beta_prior. pose proof ((by_nonneg g D HP) b). pose proof (HM ((by_ g D) b + 2) ltac:(lra)). lra. Qed.
Lemma G_pos b : 0 < G b.
Proof. pose proof (G_near b). pose proof ((by_nonneg g D HP) b). unfold gamma_beta_prior in *. lra. Qed.
Lemma b0_pos : 0 < b0. Proof. unfold gamma_beta_prior. lra. Qed.
Hypothesis HR : forall it i, 0 <= rate it i <= 1.
Lemma rtb n : 0 <= rt n <= 1. Proof. apply HR. Qed.

Lemma level_small n b : (b < nb)%nat -> (bw g D) b * exp (level n b) + b0 <= 1000000000000.
Proof.
  intro H. pose proof (weight_baseline b H) as WB. pose proof ((by_total g D HP) b H) as BT. destruct HP as (_ & _ & SM & _). destruct lims as (_ & _ & L1 & L2).
  pose proof (G_near b) as GN. destruct baseline_value as (_ & WT). pose proof b0_pos. unfold level. destruct (f_mnl f && Nat.eqb b (f_finite f)); [unfold gamma_beta_prior; lra|].
  destruct (Rle_dec ((bw g D) b * exp sc + b0) (G b)) as [C|C].
  - destruct (lev_up (G b) b0 ((bw g D) b) sc lo hi (G_pos b) b0_pos ((bw_nonneg g D HP) b) L1 L2 rt rtb C n) as (_ & E). unfold gamma_beta_prior in *. lra.
  - destruct (lev_down (G b) b0 ((bw g D) b) sc lo hi (G_pos b) b0_pos ((bw_nonneg g D HP) b) L1 L2 rt rtb ltac:(lra) n) as ((_ & A) & _).
    pose proof (weighted_mono ((bw g D) b) ((bw_nonneg g D HP) b) _ _ A). unfold gamma_beta_prior in *. lra.
Qed.

Lemma estimate_at p n b : length (p_factors p) = length D -> (b < nb)%nat ->
  (forall j, (j < length D)%nat -> nth j (p_factors p) 0 = level n (nth j lex 0%nat)) ->
  nth b (map (estimate_value bad) (group_estimates gm bppf erfinv kd [f] y w 0%nat p)) 0 = est (G b) b0 ((bw g D) b) (level n b).
Proof.
  intros L Hb Hv.
  assert (Pl : per_row lex y /\ per_row lex w /\ per_row lex (p_factors p)).
  { unfold per_row. rewrite !map_length, (lexl g D). lia. } destruct Pl as (Py & Pw & Pp).
  unfold group_estimates. cbn [nth_error estimates]. cbv zeta. unfold poisson_parameters, calc_factors_and_uncertainties, poisson_precalc. cbn [fst snd].
  apply nth_error_nth. rewrite nth_error_map.
  assert (A1 : nth_error (map (fun a => a + gamma_alpha_prior) (bincounts lex (map2 Rmult y w) nb)) b = Some ((by_ g D) b + gamma_alpha_prior)).
  { rewrite nth_error_map, nth_bincounts by exact Hb. cbn [option_map]. do 2 f_equal. rewrite bin_total_sum by (apply pr_map2; assumption).
    unfold by_. apply bin_sum_ext. intros j J. rewrite (at_map2 lex) by assumption. ring. }
  assert (A2 : nth_error (map (fun a => a + b0) (bincounts lex (map2 Rmult w (map (unlink_func Log) (p_factors p))) nb)) b = Some ((bw g D) b * exp (level n b) + b0)).
  { rewrite nth_error_map, nth_bincounts by exact Hb. cbn [option_map]. do 2 f_equal. rewrite bin_total_sum by (apply pr_map2; [assumption|apply pr_map; assumption]).
    unfold bw. rewrite (Rmult_comm _ (exp _)), <- bin_sum_scal. apply DescentFacts.bin_sum_ext_in. intros j J. pose proof (row_in_lt _ _ _ J) as Jl.
    rewrite (at_map2 lex) by (try assumption; apply pr_map; assumption). rewrite (at_map lex) by assumption. cbn [unlink_func].
    rewrite Hv by (rewrite <- (lexl g D); exact Jl). rewrite (nth_error_nth lex j 0%nat J). ring. }
  erewrite nth_error_map2; [|erewrite nth_error_map2; [reflexivity|exact A1|exact A2]|rewrite nth_error_map, A1; reflexivity].
  cbn [option_map estimate_value]. f_equal. unfold factor_from_posterior, posterior_estimate, est, G.
  pose proof ((by_total g D HP) b Hb) as BT. destruct HP as (_ & _ & SM & _). destruct baseline_value as (_ & WT). pose proof (level_small n b Hb) as LS.
  rewrite (proj2 (Rleb_iff _ _)) by (unfold gamma_alpha_prior; lra). rewrite (proj2 (Rleb_iff _ _)) by exact LS. reflexivity.
Qed.

Definition raw (n b : nat) : R := if f_mnl f && Nat.eqb b (f_finite f) then 0 else rate n 0%nat * est (G b) b0 ((bw g D) b) (level n b).
Hypothesis HS : g_smoother g = bin_values.
Lemma factor_step s n p b : s_zero s = false -> length (p_factors p) = length D -> (b < nb)%nat ->
  (forall j, (j < length D)%nat -> nth j (p_factors p) 0 = level n (nth j lex 0%nat)) ->
  nth b (snd (nf 0%nat f s n p)) 0 = raw n b.
Proof.
  intros Z L Hb Hv. unfold new_factors, kind_calibration. cbn [snd]. cbv zeta.
  pose proof (estimate_at p n b L Hb Hv) as EST.
  set (vals := map (estimate_value bad) (group_estimates gm bppf erfinv kd [f] y w 0%nat p)) in *.
  assert (LV : length vals = nb).
  { unfold vals. rewrite map_length. unfold group_estimates. cbn [nth_error estimates]. cbv zeta. unfold poisson_parameters, calc_factors_and_uncertainties. cbn [fst snd].
assert (A : length (map (fun a => a + gamma_alpha_prior) (bincounts lex (map2 Rmult y w) nb)) = nb) by (rewrite map_length, bincounts_length; reflexivity).
    assert (B : length (map (fun b => b + b0) (bincounts lex (map2 Rmult w (map (unlink_func Log) (p_factors p))) nb)) = nb) by (rewrite map_length, bincounts_length; reflexivity).
    unfold poisson_precalc. rewrite map2_length; rewrite map2_length; rewrite ?A, ?B; try reflexivity. rewrite map_length. symmetry. exact A. }
  assert (LM : forall (h : nat -> R), length (map h (seq 0 (f_finite f))) = f_finite f) by (intros; rewrite map_length, seq_length; reflexivity).
  unfold raw. destruct (Nat.eq_dec b (f_finite f)) as [->|Nb].
  - rewrite app_nth2 by (rewrite LM; lia). rewrite LM, Nat.sub_diag. cbn [nth]. rewrite Nat.eqb_refl, andb_true_r.
    destruct (f_mnl f); [reflexivity|]. rewrite EST. ring.
  - rewrite app_nth1 by (rewrite LM; lia). rewrite (nth_map_lt _ _ b 0%nat) by (rewrite seq_length; lia). rewrite seq_nth by lia. cbn [plus].
    rewrite Z. rewrite (proj2 (Nat.eqb_neq _ _) Nb), andb_false_r. unfold group_smoother. cbn [nth_error]. rewrite HS. unfold bin_values.
    rewrite (nth_error_nth' _ 0) by (rewrite firstn_length, LV; lia). rewrite nth_firstn_lt by lia. rewrite EST. reflexivity.
Qed.
Lemma factors_length s n p : length (snd (nf 0%nat f s n p)) = nb.
Proof. unfold new_factors, kind_calibration. cbn [snd]. cbv zeta. rewrite app_length, map_length, seq_length. cbn. lia. Qed.

Lemma level_next n b : level (S n) b = sc + clip lo hi (level n b - sc + clip (ln (1/2)) (ln 2) (raw n b)).
Proof.
  unfold raw, level. destruct (f_mnl f && Nat.eqb b (f_finite f)).
  - destruct lims as (_ & _ & A & B). pose proof half_le. rewrite !clip_mid by (rewrite ?clip_mid by lra; lra). lra.
  - reflexivity.
Qed.

(** ** The loss *)
Lemma near_square m T V mb c : 0 <= c -> Rabs (T - mb) <= c -> Rmin m T <= V <= Rmax m T -> (V - mb) ^ 2 <= (m - mb) ^ 2 + c ^ 2.
Proof.
  intros C A B. assert (A' : - c <= T - mb <= c) by (unfold Rabs in A; destruct (Rcase_abs _); lra).
  assert (H : Rabs (V - mb) <= Rmax (Rabs (m - mb)) c).
  { unfold Rmin, Rmax, Rabs in *. repeat destruct (Rle_dec _ _); repeat destruct (Rcase_abs _); lra. }
  rewrite <- (pow2_abs (V - mb)), <- (pow2_abs (m - mb)).
  pose proof (Rabs_pos (V - mb)). pose proof (Rabs_pos (m - mb)).
  unfold Rmax in H. destruct (Rle_dec _ _); nra.
Qed.

Lemma target_near b : 1 <= (bw g D) b -> Rabs ((G b - b0) / (bw g D) b - (by_ g D) b / (bw g D) b) <= 12/1000 / (bw g D) b.
Proof.
  intro H. pose proof (G_near b). replace ((G b - b0) / (bw g D) b - (by_ g D) b / (bw g D) b) with ((G b - b0 - (by_ g D) b) / (bw g D) b) by (field; lra).
  unfold Rdiv at 1. rewrite Rabs_mult, (Rabs_right (/ (bw g D) b)) by (apply Rle_ge; left; apply Rinv_0_lt_compat; lra).
  apply Rmult_le_compat_r; [left; apply Rinv_0_lt_compat; lra|]. apply Rabs_le. lra.
Qed.
Lemma between_targets n b : 1 <= (bw g D) b -> Rmin (exp sc) ((G b - b0) / (bw g D) b) <= exp (level n b) <= Rmax (exp sc) ((G b - b0) / (bw g D) b).
Proof.
  intro H. unfold level. destruct (f_mnl f && Nat.eqb b (f_finite f)); [split; [apply Rmin_l|apply Rmax_l]|].
  destruct lims as (_ & _ & A & B). apply (lev_between (G b) b0 ((bw g D) b) sc lo hi (G_pos b) b0_pos ((bw_nonneg g D HP) b) A B rt rtb n). lra.
Qed.

Lemma level_squares n b : (bw g D) b * exp (level n b) ^ 2 - 2 * (by_ g D) b * exp (level n b)
  <= (bw g D) b * exp sc ^ 2 - 2 * (by_ g D) b * exp sc + (12/1000) ^ 2 * (bw g D) b.
Proof.
  destruct ((bw_full g D HP) b) as [Z|P]; [rewrite ((by_null g D HP) b Z), Z; lra|].
  assert (TC : Rabs ((G b - b0) / (bw g D) b - (by_ g D) b / (bw g D) b) <= 12/1000).
  { eapply Rle_trans; [apply target_near; exact P|]. apply Rmult_le_reg_r with ((bw g D) b); [lra|]. unfold Rdiv at 1. rewrite Rmult_assoc, Rinv_l by lra. lra. }
  pose proof (near_square (exp sc) ((G b - b0) / (bw g D) b) (exp (level n b)) ((by_ g D) b / (bw g D) b) (12/1000) ltac:(lra) TC (between_targets n b P)) as Q.
  set (V := exp (level n b)) in *. set (m := exp sc) in *. set (mb := (by_ g D) b / (bw g D) b) in *.
  assert (E : (by_ g D) b = (bw g D) b * mb) by (unfold mb; field; lra). rewrite E. clearbody V m mb. clear E TC.
  assert ((bw g D) b * (V - mb) ^ 2 <= (bw g D) b * ((m - mb) ^ 2 + (12/1000) ^ 2)) by (apply Rmult_le_compat_l; lra). lra.
Qed.

Lemma loss_at n p : length (p_factors p) = length D ->
  (forall j, (j < length D)%nat -> nth j (p_factors p) 0 = level n (nth j lex 0%nat)) ->
  loss p <= 2 * loss (start sc).
Proof.
  intros L H. cbv beta. rewrite (kind_loss_value bad kd D (p_factors p) L I), (kind_loss_value bad kd D (p_factors (start sc)) (repeat_length _ _) I).
  unfold mean_deviation. cbn [kind_link p_factors]. destruct baseline_value as (_ & WT).
  rewrite map_repeat_eq. cbn [unlink_func].
  assert (Q : squares D (map (unlink_func Log) (p_factors p)) <= squares D (repeat (exp sc) (length D)) + (12/1000) ^ 2 * total_weight D).
  { rewrite (squares_cells D lex nb (fun b => exp (level n b)) _ (lexl g D) (lex_bound g D HP)).
    2: rewrite map_length; exact L.
    2: { intros j J. rewrite (at_map lex) by (try (unfold per_row); rewrite (lexl g D); assumption). rewrite H by exact J. reflexivity. }
    rewrite (squares_cells D lex nb (fun b => exp sc) _ (lexl g D) (lex_bound g D HP) (repeat_length _ _)).
    2: { intros j J. apply nth_error_nth. apply nth_error_repeat. exact J. }
    rewrite <- (sum_bw g D HP). generalize (seq 0 nb) as l. induction l as [|b l IH]; cbn [map sumR]; [lra|].
    pose proof (level_squares n b) as LS. change (bin_sum lex (fun j => nth j w 0) b) with ((bw g D) b).
    change (bin_sum lex (fun j => nth j w 0 * nth j y 0) b) with ((by_ g D) b). lra. }
  destruct HP as (_ & _ & _ & _ & SP). specialize (SP (exp sc)).
  unfold Rdiv. rewrite <- Rmult_assoc. apply Rmult_le_compat_r; [left; apply Rinv_0_lt_compat; exact WT|]. lra.
Qed.

(** ** The loop *)
Hypothesis HH : c_hier cfg = false \/ g_hier g = true.
Hypothesis Hlog : c_log cfg = true.
Hypothesis Hagg : c_aggregate cfg = true.
Definition reached (st : state) : Prop :=
  length (p_factors (t_preds st)) = length D /\
  (forall j, (j < length D)%nat -> nth j (p_factors (t_preds st)) 0 = level (t_iter st) (nth j lex 0%nat)) /\
  t_isdiv st = false /\ (0 <= t_delta st /\ t_loss st <= 2 * loss (start sc)) /\
  exists s, t_feats st = [s] /\ s_zero s = false /\
    ((t_iter st = 0%nat /\ s_fitted s = false) \/
     (s_fitted s = true /\ exists a, s_agg s = Some a /\ length a = nb /\ forall b, (b < nb)%nat -> nth b a 0 = level (t_iter st) b - sc)).

Lemma not_skipped it : skipped cfg f it = false.
Proof. unfold skipped. destruct HH as [->|E]; [reflexivity|]. change (f_hier f) with (g_hier g). rewrite E. apply andb_false_r. Qed.

Lemma reached_next st : reached st ->
  exists st', iteration cfg [f] calc smooth (kind_calibration kd [f] w) rate loss (loss (start sc)) st = Ok st' /\ reached st' /\ t_iter st' = S (t_iter st).
Proof.
  intros (L & H & ND & (_ & LO) & s & Es & Z & AG).
  assert (LN : 0 <= loss (start sc)).
  { cbv beta. rewrite (kind_loss_value bad kd D (p_factors (start sc)) (repeat_length _ _) I). unfold mean_deviation. destruct baseline_value as (_ & WT).
    apply Rmult_le_pos; [apply squares_nonneg, forall2_fst, (HWY g D HP)|left; apply Rinv_0_lt_compat; exact WT]. }
  destruct (nf 0%nat f s (t_iter st) (t_preds st)) as [un fs] eqn:EN.
  assert (FS : forall b, (b < nb)%nat -> nth b fs 0 = raw (t_iter st) b).
  { intros b Hb. rewrite <- (factor_step s (t_iter st) (t_preds st) b Z L Hb H), EN. reflexivity. }
  assert (LF : length fs = nb) by (rewrite <- (factors_length s (t_iter st) (t_preds st)), EN; reflexivity).
  set (fs1 := clip_step fs).
  set (fs2 := if s_fitted s then match s_agg s with Some a => clip_absolute f a fs1 | None => fs1 end else fs1).
  assert (L1 : length fs1 = nb) by (unfold fs1, clip_step; rewrite map_length; exact LF).
  assert (N1 : forall b, (b < nb)%nat -> nth b fs1 0 = clip (ln (1/2)) (ln 2) (raw (t_iter st) b)).
  { intros b Hb. unfold fs1, clip_step. rewrite (nth_map_lt _ _ b 0) by lia. rewrite FS by exact Hb. reflexivity. }
  assert (F2 : length fs2 = nb /\ forall b, (b < nb)%nat -> nth b fs2 0 = level (S (t_iter st)) b - level (t_iter st) b).
  { unfold fs2. destruct AG as [(T0 & ->)|(-> & a & -> & La & Na)].
    - split; [exact L1|]. intros b Hb. rewrite N1 by exact Hb. rewrite level_next, T0.
      assert (E0 : level 0 b = sc) by (unfold level; destruct (f_mnl f && Nat.eqb b (f_finite f)); reflexivity). rewrite E0.
      destruct lims as (A & B & _). pose proof half_le. pose proof (clip_bounds (ln (1/2)) (ln 2) (raw 0 b) ltac:(lra)).
      replace (sc - sc + clip (ln (1/2)) (ln 2) (raw 0 b)) with (clip (ln (1/2)) (ln 2) (raw 0 b)) by ring.
      rewrite (clip_mid lo hi) by lra. ring.
    - split; [rewrite clip_absolute_length by lia; exact La|]. intros b Hb. unfold clip_absolute.
      rewrite (surjective_pairing (factor_limits f)). rewrite nth_map2 by lia. rewrite N1, Na by exact Hb. rewrite level_next.
      rewrite <- (clip_offset lo hi (level (t_iter st) b - sc)). ring. }
  destruct F2 as (L2 & N2). pose proof HP as HP'.
  set (p' := {| p_factors := vadd (p_factors (t_preds st)) (gather fs2 lex); p_exponents := p_exponents (t_preds st) |}).
  assert (Lp : length (p_factors p') = length D) by (cbn [p' p_factors]; unfold vadd; rewrite map2_length; rewrite ?gather_length, ?(lexl g D); auto).
  assert (Np : forall j, (j < length D)%nat -> nth j (p_factors p') 0 = level (S (t_iter st)) (nth j lex 0%nat)).
  { intros j J. cbn [p' p_factors]. rewrite nth_vadd by (rewrite gather_length, (lexl g D), L; reflexivity). rewrite nth_gather by (rewrite (lexl g D); exact J).
    rewrite (H j J). rewrite N2 by (apply (lex_bound g D HP), nth_In; rewrite (lexl g D); exact J). ring. }
  pose proof (loss_at (S (t_iter st)) p' Lp Np) as LS.
  assert (DV : is_diverged (loss (start sc)) (loss p') = false).
  { unfold is_diverged. apply Rltb_false. cbv beta in LS |- *. lra. }
  unfold iteration. rewrite Es. cbn [features_pass]. rewrite not_skipped. unfold feature_iteration. rewrite Hagg. cbv zeta. rewrite EN.
  unfold visit_factors, limit_factors. rewrite Hlog, Hagg, ND. cbn [andb]. fold fs1. fold fs2. cbn [s_factors f_ext bind_group add_preds]. fold p'.
  cbv beta in DV |- *. rewrite DV. cbn [andb].
  eexists. split; [reflexivity|]. split; [|reflexivity].
  split; [exact Lp|]. split; [exact Np|]. split; [reflexivity|]. split; [split; [cbn [t_delta]; apply CellFacts.deviation_nonneg|exact LS]|].
  eexists. split; [reflexivity|]. split; [exact Z|]. right. split; [reflexivity|]. cbn [s_agg t_iter].
  destruct AG as [(T0 & FI)|(FI & a & SA & La & Na)].
  - rewrite FI. cbn [andb]. exists fs2. split; [reflexivity|]. split; [exact L2|]. intros b Hb. rewrite N2 by exact Hb. rewrite T0.
    assert (E0 : level 0 b = sc) by (unfold level; destruct (f_mnl f && Nat.eqb b (f_finite f)); reflexivity). rewrite E0. reflexivity.
  - rewrite FI, SA. cbn [andb]. exists (vadd a fs2). split; [reflexivity|]. split; [unfold vadd; rewrite map2_length; lia|].
    intros b Hb. rewrite nth_vadd by lia. rewrite N2, Na by exact Hb. ring.
Qed.

Lemma finish_same i st r : finish i st = r -> r = Ok st \/ exists e, r = Raise e.
Proof. unfold finish. destruct (forallb _ _); [|intros <-; right; eauto]. destruct (_ && _)%bool; intros <-; [right|left]; eauto. Qed.

Lemma finish_fine st : reached st -> finish (loss (start sc)) st <> Raise ConvergenceError.
Proof.
  intros (_ & _ & _ & (_ & LO) & _). unfold finish. destruct (forallb _ _); [|discriminate].
  assert (DV : is_diverged (loss (start sc)) (t_loss st) = false) by (unfold is_diverged; apply Rltb_false; cbv beta in LO |- *; lra).
  cbv beta in DV |- *. rewrite DV. discriminate.
Qed.

Lemma reached_loop : forall fuel st r, reached st ->
  loop cfg [f] calc smooth (kind_calibration kd [f] w) rate loss fuel (loss (start sc)) st = Some r ->
  r <> Raise ConvergenceError /\ forall st', r = Ok st' -> reached st'.
Proof.
  induction fuel as [|fuel IH]; intros st r G E; cbn [loop] in E; destruct (continues cfg st); try discriminate.
  1, 3: injection E as E; rewrite <- E; split; [exact (finish_fine st G)|]; intros st' E'; destruct (finish_same _ _ _ E') as [X|(e & X)]; [injection X as ->; exact G|discriminate].
  destruct (reached_next st G) as (s1 & E1 & G1 & _). rewrite E1 in E. exact (IH s1 r G1 E).
Qed.

Lemma start_nonneg : 0 <= loss (start sc).
Proof.
  cbv beta. rewrite (kind_loss_value bad kd D (p_factors (start sc)) (repeat_length _ _) I). unfold mean_deviation. destruct baseline_value as (_ & WT).
  apply Rmult_le_pos; [apply squares_nonneg, forall2_fst, (HWY g D HP)|left; apply Rinv_0_lt_compat; exact WT].
Qed.
Lemma reached_init : reached (init_state [f] loss (start sc)).
Proof.
  split; [apply repeat_length|]. split.
  - intros j J. cbn [init_state t_preds t_iter p_factors]. rewrite (nth_error_nth _ _ _ (nth_error_repeat _ J)).
    unfold level. destruct (_ && _)%bool; reflexivity.
  - split; [reflexivity|]. split; [|exists (init_fstate f); split; [reflexivity|split; [reflexivity|left; split; reflexivity]]].
    cbn [init_state t_loss t_delta]. split; [lra|]. pose proof start_nonneg as P. cbv beta in P |- *. lra.
Qed.

(** Training makes at most the configured number of passes. *)
Lemma loop_ends : c_hier cfg = false -> c_maxiter cfg <> 0%nat -> forall fuel st, reached st -> (t_iter st <= c_maxiter cfg)%nat -> (c_maxiter cfg <= t_iter st + fuel)%nat ->
  (t_iter st = 0%nat -> t_delta st = 100 /\ t_losschange st = IZR (10 ^ 20)) -> c_minfactor cfg < 100 -> c_minloss cfg < IZR (10 ^ 20) ->
  exists st', loop cfg [f] calc smooth (kind_calibration kd [f] w) rate loss fuel (loss (start sc)) st = Some (Ok st') /\
    (c_minfactor cfg < 0 -> c_minloss cfg < 0 -> t_iter st' = c_maxiter cfg).
Proof.
  intros H0 HM0. induction fuel as [|fuel IH]; intros st RE LE FU ST MF ML.
  - destruct RE as (A1 & A2 & ND & (DN & LO) & s & Es & Z & AG). assert (EI : t_iter st = c_maxiter cfg) by lia.
    assert (CT : continues cfg st = false).
    { unfold continues, check_stop, stop_iterations, veto_hierarchical. rewrite ND, H0, EI, Nat.leb_refl, andb_false_r. reflexivity. }
    exists st. cbn [loop]. rewrite CT. split; [|auto]. unfold finish. rewrite Es. cbn [forallb].
    destruct AG as [(T0 & _)|(_ & a & -> & _)]; [congruence|]. cbn [andb].
    assert (DV : is_diverged (loss (start sc)) (t_loss st) = false) by (unfold is_diverged; apply Rltb_false; cbv beta in LO |- *; lra).
    cbv beta in DV |- *. rewrite DV. reflexivity.
  - destruct (continues cfg st) eqn:CT.
    + cbn [loop]. rewrite CT. destruct (reached_next st RE) as (s1 & E1 & R1 & N1). rewrite E1.
      assert (LT : (t_iter st < c_maxiter cfg)%nat).
      { destruct (Nat.lt_ge_cases (t_iter st) (c_maxiter cfg)) as [X|X]; [exact X|]. destruct RE as (_ & _ & ND & _).
        exfalso. unfold continues, check_stop, stop_iterations, veto_hierarchical in CT.
        rewrite ND, H0, (proj2 (Nat.leb_le _ _)) in CT by exact X. rewrite andb_false_r in CT. discriminate. }
      apply IH; auto; try lia.
    + destruct RE as (A1 & A2 & ND & (DN & LO) & s & Es & Z & AG).
      assert (NZ : t_iter st <> 0%nat).
      { intro T0. destruct (ST T0) as (D1 & D2). unfold continues, check_stop, stop_iterations, stop_factor_change, stop_loss_change in CT.
        rewrite T0, D1, D2, (proj2 (Nat.leb_gt _ _)) in CT by lia. rewrite (proj2 (Rleb_false _ _)) in CT by lra.
        rewrite Rabs_right, (proj2 (Rleb_false _ _)) in CT by (try lra; apply Rle_ge, IZR_le; vm_compute; discriminate). discriminate. }
      exists st. cbn [loop]. rewrite CT. split.
      * unfold finish. rewrite Es. cbn [forallb]. destruct AG as [(T0 & _)|(_ & a & -> & _)]; [congruence|]. cbn [andb].
        assert (DV : is_diverged (loss (start sc)) (t_loss st) = false) by (unfold is_diverged; apply Rltb_false; cbv beta in LO |- *; lra).
        cbv beta in DV |- *. rewrite DV. reflexivity.
      * intros F0 L0. unfold continues, check_stop, stop_iterations, stop_factor_change, stop_loss_change, veto_hierarchical in CT.
        rewrite ND, H0 in CT. rewrite (proj2 (Rleb_false _ _)) in CT by lra.
        rewrite (proj2 (Rleb_false (Rabs _) _)) in CT by (pose proof (Rabs_pos (t_losschange st)); lra).
        rewrite !orb_false_r, andb_false_r, andb_true_r in CT. apply negb_false_iff, Nat.leb_le in CT. lia.
Qed.

Lemma loop_from_start fuel r : train gm bppf erfinv bad kd false [g] cfg rate fuel D sc 0 = Some r ->
  r <> Raise ConvergenceError /\ forall st', r = Ok st' -> reached st'.
Proof. intro E. unfold train in E. cbv zeta in E. cbn [linked_column prior_predictions] in E. unfold fit_main in E. exact (reached_loop fuel _ r reached_init E). Qed.
End Single.

(** Weights of at least 1. *)
Lemma full_if_heavy g D : binned_rows [g] D -> Forall (fun s => 1 <= x_w s) D -> full_cells D.
Proof.
  intros HB HW s cell I C. right.
  assert (T : cell s = true).
  { apply (C s I). apply cellb_spec; [| |]; [intros x X; exact (proj2 (proj2 HB) s 0%nat x I X)|intros x X; exact (proj2 (proj2 HB) s 0%nat x I X)|].
    unfold cellb. destruct (row_finite_semi_positive _); [|reflexivity]. destruct (list_eq_dec _ _ _); [reflexivity|contradiction]. }
  clear C HB. unfold cell_weight.
  assert (N : forall E, Forall (fun s => 1 <= x_w s) E -> 0 <= cell_sum cell x_w E).
  { induction 1 as [|s' E A _ IH]; cbn [cell_sum]; [lra|]. destruct (cell s'); lra. }
  induction HW as [|s' D A FA IH]; [destruct I|]. cbn [cell_sum]. destruct I as [->|I].
  - rewrite T. pose proof (N D FA). lra.
  - specialize (IH I). destruct (cell s'); lra.
Qed.

Section Whole.
Variables (gm : R -> R) (bppf : R -> R -> R -> R) (erfinv : R -> R) (bad : R).
Variables (g : group) (cfg : settings) (rate : nat -> nat -> R) (D : list sample).
Hypothesis HM : median_near gm.
Hypothesis HP : poisson_data g D.
Hypothesis HR : forall it i, 0 <= rate it i <= 1.
Hypothesis HS : g_smoother g = bin_values.
Hypothesis HH : c_hier cfg = false \/ g_hier g = true.
Hypothesis Hlog : c_log cfg = true.
Hypothesis Hagg : c_aggregate cfg = true.
Notation y := (map x_y D).
Notation w := (map x_w D).
Notation f := (bind_group D 0 g).
Notation kd := PoissonRegressor.

(** Without a prior column the offset is not used. *)
Lemma train_offset fuel sc o o' : train gm bppf erfinv bad kd false [g] cfg rate fuel D sc o = train gm bppf erfinv bad kd false [g] cfg rate fuel D sc o'.
Proof. reflexivity. Qed.

Theorem never_diverges fuel : whole_fit gm bppf erfinv bad kd false [g] cfg rate fuel D <> Failed ConvergenceError.
Proof.
  unfold whole_fit. destruct (kind_scale _ _ _) as [sc|] eqn:Esc; [|discriminate]. cbv zeta.
  rewrite (train_offset fuel sc _ 0).
  destruct (train gm bppf erfinv bad kd false [g] cfg rate fuel D sc 0) as [[st|e]|] eqn:E; try discriminate.
  destruct (loop_from_start gm bppf erfinv bad g cfg rate D HM HP sc Esc HR HS HH Hlog Hagg fuel _ E) as (N & _). congruence.
Qed.

Theorem trains fuel : 0 < total_weight D -> c_hier cfg = false -> c_maxiter cfg <> 0%nat -> (c_maxiter cfg <= fuel)%nat ->
  c_minfactor cfg < 100 -> c_minloss cfg < IZR (10 ^ 20) ->
  exists t, whole_fit gm bppf erfinv bad kd false [g] cfg rate fuel D = Trained t /\
    exp (o_scale t) = total_target D / total_weight D + 1 / 1000 /\
    (c_minfactor cfg < 0 -> c_minloss cfg < 0 -> o_iterations t = c_maxiter cfg).
Proof.
  intros WT H0 H1 H2 H3 H4.
  assert (Y0 : 0 <= total_target D).
  { pose proof (proj1 (proj2 HP)) as Q. clear - Q. unfold total_target. induction Q as [|s r (A & B) _ IH]; cbn [fold_right]; [lra|]. pose proof (Rmult_le_pos _ _ A B). lra. }
  assert (ES : exists sc, kind_scale kd y w = Some sc).
  { cbn [kind_scale kind_link]. unfold global_scale, weighted_mean. rewrite weights_sum, (proj2 (Reqb_false_iff _ _)) by lra.
    assert (C : sumR (map2 Rmult y w) = sumR (map2 Rmult w y)).
    { clear. induction D as [|s r IH]; cbn; [reflexivity|]. rewrite IH. ring. }
    rewrite C, <- total_target_sum. apply link_domain. cbn.
    assert (0 <= total_target D / total_weight D) by (apply Rmult_le_pos; [exact Y0|left; apply Rinv_0_lt_compat; exact WT]). lra. }
  destruct ES as (sc & Esc). unfold whole_fit. rewrite Esc. cbv zeta. rewrite (train_offset fuel sc _ 0).
  destruct (loop_ends gm bppf erfinv bad g cfg rate D HM HP sc Esc HR HS HH Hlog Hagg H0 H1 fuel
    (init_state [f] (fun p => kind_loss bad kd y w (p_factors p)) {| p_factors := repeat sc (length D); p_exponents := zeros (length D) |})
    (reached_init gm bad g rate D HP sc Esc) ltac:(cbn; lia) ltac:(cbn; lia) ltac:(intros _; split; reflexivity) H3 H4) as (st & L & N).
  unfold train. cbv zeta. unfold fit_main. cbn [linked_column prior_predictions bind_groups]. cbv beta in L |- *. rewrite L.
  eexists. split; [reflexivity|]. cbn [o_scale o_iterations]. split; [|exact N].
  destruct (baseline_value g D HP sc Esc) as (B & _). apply Rmult_eq_reg_r with (total_weight D); [|lra]. rewrite B. field. lra.
Qed.

Lemma trained_level fuel t : whole_fit gm bppf erfinv bad kd false [g] cfg rate fuel D = Trained t ->
  kind_scale kd y w = Some (o_scale t) /\ length (whole_predict kd false t D) = length D /\
  forall j, (j < length D)%nat ->
    nth j (whole_predict kd false t D) 0 = exp (level gm g rate D (o_scale t) (o_iterations t) (nth j (f_lex f) 0%nat)).
Proof.
  intro F. unfold whole_fit in F. destruct (kind_scale _ _ _) as [sc|] eqn:Esc; [|discriminate]. cbv zeta in F.
  rewrite (train_offset fuel sc _ 0) in F.
  destruct (train gm bppf erfinv bad kd false [g] cfg rate fuel D sc 0) as [[st|e]|] eqn:E; try discriminate.
  destruct (loop_from_start gm bppf erfinv bad g cfg rate D HM HP sc Esc HR HS HH Hlog Hagg fuel _ E) as (_ & RE). specialize (RE st eq_refl).
  injection F as <-. cbn [o_scale o_iterations]. split; [reflexivity|].
  set (start := {| p_factors := repeat sc (length D); p_exponents := zeros (length D) |}).
  assert (L : length (p_factors start) = length D /\ length (p_exponents start) = length D) by (split; cbn; [apply repeat_length|apply zeros_length]).
  destruct (bind_shaped D [g] start (proj1 HP) (proj1 L) (proj2 L)) as (W & Hd & Hwh).
  unfold train in E. cbv zeta in E. cbn [linked_column prior_predictions] in E.
  pose proof (insample_all cfg [f] _ _ (kind_calibration kd [f] w) rate _ start (length D) W (loop_per_bin gm bppf erfinv bad kd _ _ _) fuel st E Hagg Hd (fun f Hf _ => Hwh f Hf)) as IA.
  rewrite (same_rows x_bins D [f] (bind_rows D [g])), trained_store in IA by (unfold trained_model; rewrite map_length, combine_length; lia).
  match goal with |- length (whole_predict _ _ ?m _) = _ /\ _ => assert (PE : whole_predict kd false m D = map exp (p_factors (t_preds st))) end.
  { unfold whole_predict. cbn [o_scale o_offset o_groups]. unfold cb_predict. cbn [linked_column prior_predictions]. rewrite map_length.
    exact (f_equal (fun q => map (kind_output kd) (p_factors q)) IA). }
  rewrite PE. destruct RE as (L1 & H & _). split; [rewrite map_length; exact L1|]. intros j J.
  rewrite (nth_map_lt _ _ j 0) by (rewrite L1; exact J). rewrite (H j J). reflexivity.
Qed.

Lemma in_cell j s cell : nth_error D j = Some s -> cell_of D s cell -> 0 < cell_weight cell D ->
  let b := nth j (f_lex f) 0%nat in
  1 <= bw g D b /\ bw g D b = cell_weight cell D /\ forall m, cell_mean cell D m -> m = by_ g D b / bw g D b.
Proof.
  intros E C P b. destruct (cell_bin g D HP j s cell E C) as (EW & EY). fold b in EW, EY. split.
  - destruct (bw_full g D HP b) as [Z|Q]; [lra|exact Q].
  - split; [symmetry; exact EW|]. intros m M. unfold cell_mean in M. rewrite EW, EY in M. rewrite <- M. field. lra.
Qed.

Theorem between_up_to fuel t j s cell m p :
  whole_fit gm bppf erfinv bad kd false [g] cfg rate fuel D = Trained t ->
  nth_error D j = Some s -> cell_of D s cell -> cell_mean cell D m -> 0 < cell_weight cell D ->
  nth_error (whole_predict kd false t D) j = Some p ->
  Rmin (exp (o_scale t)) m - 12/1000 / cell_weight cell D <= p <= Rmax (exp (o_scale t)) m + 12/1000 / cell_weight cell D.
Proof.
  intros F E C M P EP. destruct (in_cell j s cell E C P) as (Q & EW & EM). specialize (EM m M).
  assert (J : (j < length D)%nat) by (apply nth_error_Some; congruence).
  destruct (trained_level fuel t F) as (Esc & L & H). specialize (H j J). rewrite (nth_error_nth _ j 0 EP) in H. rewrite H, EM, <- EW.
  pose proof (between_targets gm g rate D HM HP (o_scale t) HR (o_iterations t) _ Q) as B.
  pose proof (target_near gm g D HM HP _ Q) as N. set (T := (G gm g D _ - gamma_beta_prior) / _) in *. set (mb := by_ g D _ / _) in *.
  set (d := 12/1000 / bw g D _) in *. set (e := exp (o_scale t)) in *. set (q := exp (level gm g rate D _ _ _)) in *. clearbody T mb d e q.
  unfold Rmin, Rmax, Rabs in *. repeat destruct (Rle_dec _ _); repeat destruct (Rcase_abs _); lra.
Qed.

Theorem poisson_missing fuel t j s :
  whole_fit gm bppf erfinv bad kd false [g] cfg rate fuel D = Trained t ->
  nth_error D j = Some s -> g_mnl g = true -> missing_entry (x_bins s 0%nat) -> nth_error (whole_predict kd false t D) j = Some (exp (o_scale t)).
Proof.
  intros F E MN M. assert (J : (j < length D)%nat) by (apply nth_error_Some; congruence).
  destruct (trained_level fuel t F) as (_ & L & H). rewrite (nth_error_nth' _ 0) by lia. f_equal. rewrite (H j J). f_equal.
  unfold level. change (f_mnl f) with (g_mnl g).
  rewrite MN, (lex_missing f (Hdim1 g D (proj1 HP)) (rows_len g D (proj1 HP)) j _ (row_at g D j s E) M), Nat.eqb_refl. reflexivity.
Qed.
End Whole.

Lemma limited_near lo hi a b d : lo <= hi -> Rabs (a - b) <= d -> Rabs (limited lo hi a - limited lo hi b) <= d.
Proof. intros H A. unfold limited, Rmin, Rmax, Rabs in *. repeat destruct (Rle_dec _ _); repeat destruct (Rcase_abs _); lra. Qed.

Theorem poisson_limit gm bppf erfinv bad g rate D : median_near gm -> poisson_data g D -> g_smoother g = bin_values ->
  forall rho, 0 < rho -> (forall it i, rho <= rate it i <= 1) -> forall j s cell m eps,
  nth_error D j = Some s -> cell_of D s cell -> cell_mean cell D m -> 0 < cell_weight cell D ->
  (g_mnl g = false \/ ~ missing_entry (x_bins s 0%nat)) -> 0 < eps ->
  exists enough, forall cfg fuel t p,
    (c_hier cfg = false \/ g_hier g = true) -> c_log cfg = true -> c_aggregate cfg = true ->
    whole_fit gm bppf erfinv bad PoissonRegressor false [g] cfg rate fuel D = Trained t ->
    (enough <= o_iterations t)%nat ->
    nth_error (whole_predict PoissonRegressor false t D) j = Some p ->
    Rabs (p - limited (smallest_factor (g_dim g) * exp (o_scale t)) (largest_factor (g_dim g) * exp (o_scale t)) m)
      <= 12/1000 / cell_weight cell D + eps.
Proof.
  intros HM HP HS rho Hrho HRr j s cell m eps E C M P NM He.
  assert (HR : forall it i, 0 <= rate it i <= 1) by (intros it i; specialize (HRr it i); lra).
  destruct (in_cell g D HP j s cell E C P) as (Q & EW & EM). specialize (EM m M). cbv zeta in *.
  set (b := nth j (f_lex (bind_group D 0 g)) 0%nat) in *.
  assert (NB : f_mnl (bind_group D 0 g) && Nat.eqb b (f_finite (bind_group D 0 g)) = false).
  { change (f_mnl (bind_group D 0 g)) with (g_mnl g). destruct NM as [->|NM]; [reflexivity|].
    destruct (row_finite_semi_positive (x_bins s 0%nat)) eqn:S; [|apply semi_positive_iff in S; contradiction].
    destruct (lex_row (bind_group D 0 g) (Hdim1 g D (proj1 HP)) (rows_len g D (proj1 HP)) (rows_whole g D (proj1 HP)) j _ (row_at g D j s E) S) as (_ & _ & LT).
    fold b in LT. rewrite (proj2 (Nat.eqb_neq _ _)) by lia. apply andb_false_r. }
  destruct (kind_scale PoissonRegressor (map x_y D) (map x_w D)) as [sc|] eqn:Esc.
  2: { exists 0%nat. intros cfg fuel t p _ _ _ F. unfold whole_fit in F. rewrite Esc in F. discriminate. }
  destruct (lims g D) as (_ & _ & A & B).
  destruct (limit (G gm g D b) gamma_beta_prior (bw g D b) sc _ _ (G_pos gm g D HM HP b) b0_pos (bw_nonneg g D HP b) A B
    (fun n => rate n 0%nat) (fun n => HR n 0%nat) rho Hrho (fun n => proj1 (HRr n 0%nat)) eps ltac:(lra) He) as (N & HN).
  exists N. intros cfg fuel t p HH Hlog Hagg F Hit EP.
  assert (J : (j < length D)%nat) by (apply nth_error_Some; congruence).
  destruct (trained_level gm bppf erfinv bad g cfg rate D HM HP HR HS HH Hlog Hagg fuel t F) as (Esc' & L & H).
  rewrite Esc in Esc'. injection Esc' as Esc'. rewrite <- Esc' in *. specialize (H j J). rewrite (nth_error_nth _ j 0 EP) in H. fold b in H. unfold level in H. rewrite NB in H.
  specialize (HN _ Hit). rewrite <- H in HN.
  assert (TE : theta (G gm g D b) gamma_beta_prior (bw g D b) sc (ln (fst (factor_limits (bind_group D 0 g)))) (ln (snd (factor_limits (bind_group D 0 g))))
    = limited (smallest_factor (g_dim g) * exp sc) (largest_factor (g_dim g) * exp sc) ((G gm g D b - gamma_beta_prior) / bw g D b)).
  { unfold theta. change clip with limited. destruct (lim_pos g D) as ((X1 & X2) & X3). rewrite !exp_plus, !exp_ln by lra.
    unfold smallest_factor, largest_factor, factor_limits. cbn [f_ext f_dim bind_group]. destruct (Nat.eqb (g_dim g) 1); cbn [fst snd]; f_equal; ring. }
  rewrite TE in HN. rewrite EM, <- EW.
  assert (LH : smallest_factor (g_dim g) * exp sc <= largest_factor (g_dim g) * exp sc).
  { apply Rmult_le_compat_r; [left; apply exp_pos|]. unfold smallest_factor, largest_factor. destruct (Nat.eqb _ 1); lra. }
  pose proof (limited_near _ _ _ _ _ LH (target_near gm g D HM HP b Q)) as LN.
  match goal with |- Rabs (p - ?u) <= _ => match type of HN with Rabs (p - ?v) <= _ => replace (p - u) with ((p - v) + (v - u)) by ring end end.
  eapply Rle_trans; [apply Rabs_triang|]. lra.
Qed.
