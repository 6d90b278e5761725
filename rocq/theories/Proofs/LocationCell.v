(** What a single feature group of the location regressor learns without smoothing. *)
From Coq Require Import ZArith QArith List Bool Reals Lia Lra Psatz.
From Verif.Model Require Import Num LexBins Train Predict Link Estimators Regularize BinSmoothers WholeFit.
From Verif.Spec Require Import TrainSpec DataSpec LexSpec PredictSpec LinkSpec EstimatorSpec RegularizeSpec InsampleSpec CellSpec LocationCellSpec.
From Verif.Proofs Require Import TrainFacts TrainExamples LexFacts PredictFacts ImportanceFacts LinkFacts EstimatorFacts LocationFacts CentredFacts InsampleFacts PipeMonotone TotalFacts DescentFacts CellFacts CentredDescent.
Import ListNotations.
Local Open Scope R_scope.

(** ** Sums over the rows and over the bins *)
Lemma total_bins lex v N : (forall b, In b lex -> (b < N)%nat) ->
  RegularizeSpec.total (length lex) v = RegularizeSpec.total N (fun b => bin_sum lex v b).
Proof.
  intro H. unfold bin_sum. change (fun b => sumR (map (fun j => if Nat.eqb (nth j lex 0%nat) b then v j else 0) (seq 0 (length lex))))
    with (fun b => RegularizeSpec.total (length lex) (fun j => if Nat.eqb (nth j lex 0%nat) b then v j else 0)).
  rewrite total_swap. apply total_ext. intros j J.
  assert (B : (nth j lex 0%nat < N)%nat) by (apply H, nth_In, J).
  unfold RegularizeSpec.total. rewrite (sumR_ext _ (fun b => (if Nat.eqb b (nth j lex 0%nat) then 1 else 0) * v j)).
  2:{ intros b _. rewrite Nat.eqb_sym. destruct (Nat.eqb b _); ring. }
  symmetry. exact (sumR_indicator (fun _ => v j) (nth j lex 0%nat) N 0 ltac:(lia)).
Qed.

Lemma bins_orthogonal lex u h N : (forall b, In b lex -> (b < N)%nat) ->
  (forall j, (j < length lex)%nat -> bin_sum lex u (nth j lex 0%nat) = 0) ->
  (forall i j, (i < length lex)%nat -> (j < length lex)%nat -> nth i lex 0%nat = nth j lex 0%nat -> h i = h j) ->
  RegularizeSpec.total (length lex) (fun j => u j * h j) = 0.
Proof.
  intros B Z C. rewrite (total_bins lex _ N B). rewrite (total_ext N _ (fun _ => 0)); [apply total_zero|]. intros b _.
  destruct (in_dec Nat.eq_dec b lex) as [I|I].
  - destruct (In_nth lex b 0%nat I) as (i & Li & Ei).
    rewrite (bin_sum_ext_in lex _ (fun j => h i * u j)).
    + rewrite bin_sum_scal, <- Ei, (Z i Li). ring.
    + intros j J. unfold row_in in J. assert (Lj : (j < length lex)%nat) by (apply nth_error_Some; congruence).
      rewrite (C j i Lj Li) by (rewrite (nth_error_nth lex j 0%nat J); congruence). ring.
  - apply bin_sum_empty. intros j J. apply I. exact (nth_error_In _ _ J).
Qed.

(** ** Estimates *)
Section Estimate.
Variables (lex : list nat) (n : nat) (y w : list R).
Hypothesis Hy : per_row lex y.
Hypothesis Hw : per_row lex w.
Hypothesis Pw : nonneg w.
Hypothesis Tw : sumR w <> 0.

Definition bin_mean (b : nat) : R := bin_sum lex (fun j => nth j w 0 * nth j y 0) b / bin_sum lex (at_row w) b.
Definition prior_of : R := match variance_prior y w with Some v => v | None => 1 end.
Definition bin_variance (b : nat) : R :=
  (prior_of + bin_sum lex (fun j => nth j w 0 * (nth j y 0 - bin_mean b) ^ 2) b) / (1 + bin_sum lex (at_row w) b).
Definition share (b : nat) : R := / (1 + 1 / 100 * (bin_variance b / bin_sum lex (at_row w) b)).

Lemma prior_pos : 0 < prior_of.
Proof. unfold prior_of. destruct (variance_prior y w) eqn:E; [exact (variance_prior_pos _ _ _ E)|lra]. Qed.

Lemma precalc_value b : (b < n)%nat -> 0 < bin_sum lex (at_row w) b ->
  nth_error (precalc_variance_y lex n y w) b = Some (Some (bin_variance b)).
Proof.
  intros Hb Pb. unfold precalc_variance_y. rewrite nth_error_map, (nth_error_nth' _ 0%nat) by (rewrite seq_length; exact Hb).
  rewrite seq_nth by exact Hb. cbn [option_map plus]. destruct (variance_prior_some y w Tw) as (v & Ev).
  unfold squared_residuals. rewrite (bin_total_sum lex w b Hw). rewrite (proj2 (Reqb_false_iff _ 0)) by lra. rewrite andb_false_r.
  unfold bin_variance, prior_of. rewrite Ev. cbv zeta. f_equal. f_equal.
  rewrite !bin_total_sum by (apply pr_map2; assumption).
  assert (E1 : bin_sum lex (at_row (map2 Rmult w y)) b = bin_sum lex (fun j => nth j w 0 * nth j y 0) b).
  { apply bin_sum_ext. intros j J. cbv beta. exact (at_map2 lex Rmult w y j Hw Hy J). }
  rewrite E1. fold (bin_mean b).
  rewrite (bin_sum_ext lex (at_row (map2 _ w y)) (fun j => nth j w 0 * (nth j y 0 - bin_mean b) ^ 2)).
  2:{ intros j J. cbv beta. exact (at_map2 lex _ w y j Hw Hy J). }
  field. lra.
Qed.

Lemma variance_pos b : 0 < bin_sum lex (at_row w) b -> 0 < bin_variance b.
Proof.
  intro P. unfold bin_variance. pose proof prior_pos.
  assert (0 <= bin_sum lex (fun j => nth j w 0 * (nth j y 0 - bin_mean b) ^ 2) b).
  { apply bin_sum_nonneg. intros j _. apply Rmult_le_pos; [apply nonneg_at; exact Pw|apply pow2_ge_0]. }
  apply Rdiv_lt_0_compat; lra.
Qed.
Lemma share_range b : 0 < bin_sum lex (at_row w) b -> 0 < share b <= 1.
Proof.
  intro P. pose proof (variance_pos b P) as V. unfold share.
  assert (Q : 0 < bin_variance b / bin_sum lex (at_row w) b) by (apply Rdiv_lt_0_compat; assumption).
  cbv beta in *. split; [apply Rinv_0_lt_compat; lra|]. apply Rle_trans with (/ 1); [apply Rinv_le_contravar; lra|lra].
Qed.

Lemma location_value p b r : per_row lex p -> (b < n)%nat -> 0 < bin_sum lex (at_row w) b ->
  (forall j, row_in lex b j -> nth j p 0 = bin_mean b - r) ->
  exists u, nth_error (location_parameters lex n y w p) b = Some (Some (share b * r, u)).
Proof.
  intros Hp Hb Pb Hr. pose proof (precalc_value b Hb Pb) as EV. pose proof (variance_pos b Pb) as PV.
  unfold location_parameters. cbv zeta.
  set (variances := precalc_variance_y lex n y w) in *.
  set (variance_of := fun b => match nth b variances None with Some v => v | None => 1 end).
  assert (VB : variance_of b = bin_variance b) by (unfold variance_of; rewrite (nth_error_nth _ _ _ EV); reflexivity).
  set (wv := map2 (fun wi b => wi / variance_of b) w lex).
  assert (Lwv : per_row lex wv) by (unfold per_row, wv; rewrite map2_len; [exact Hw|exact Hw]).
  assert (Awv : forall j, row_in lex b j -> nth j wv 0 = nth j w 0 / bin_variance b).
  { intros j Hj. unfold wv, row_in in *. pose proof (row_in_lt _ _ _ Hj) as Lj. unfold per_row in Hw.
    destruct (nth_error w j) as [x|] eqn:Ex; [|exfalso; apply nth_error_None in Ex; lia].
    rewrite (nth_error_nth _ _ _ Ex), <- VB. apply nth_error_nth. apply (nth_error_map2 (fun wi b => wi / variance_of b)); auto. }
  set (W := bin_sum lex (at_row w) b) in *.
  assert (Ex : per_row lex (map2 Rminus y p)) by (apply pr_map2; assumption).
  assert (E1 : bin_total lex wv b = W / bin_variance b).
  { rewrite bin_total_sum by exact Lwv. rewrite (bin_sum_ext_in lex _ (fun j => / bin_variance b * nth j w 0)).
    - rewrite bin_sum_scal. fold W. unfold Rdiv. ring.
    - intros j J. cbv beta. rewrite (Awv j J). unfold Rdiv. ring. }
  assert (E2 : bin_total lex (map2 Rmult wv (map2 Rminus y p)) b = W / bin_variance b * r).
  { rewrite bin_total_sum by (apply pr_map2; assumption).
    rewrite (bin_sum_ext_in lex _ (fun j => / bin_variance b * (nth j w 0 * nth j y 0 + (- (bin_mean b - r)) * nth j w 0))).
    - rewrite bin_sum_scal, (bin_sum_plus lex (fun j => nth j w 0 * nth j y 0)), (bin_sum_scal lex (- (bin_mean b - r)) (fun j => nth j w 0)). fold W. unfold bin_mean. fold W. field. lra.
    - intros j J. cbv beta. pose proof (row_in_lt _ _ _ J) as Lj.
      rewrite (at_map2 lex Rmult wv (map2 Rminus y p) j Lwv Ex Lj), (at_map2 lex Rminus y p j Hy Hp Lj), (Awv j J), (Hr j J). unfold Rdiv. ring. }
  assert (PW : 0 < W / bin_variance b) by (apply Rdiv_lt_0_compat; assumption).
  assert (C : exists u, nth_error (calc_factors_generic lex (map2 Rmult wv (map2 Rminus y p)) wv w n 0 (1 / 100)) b = Some (Some (share b * r, u))).
  { unfold calc_factors_generic. rewrite nth_error_map, (nth_error_nth' _ 0%nat) by (rewrite seq_length; exact Hb).
    rewrite seq_nth by exact Hb. cbn [option_map plus]. rewrite E1, E2. rewrite (proj2 (Reqb_false_iff _ 0)) by lra.
    eexists. f_equal. f_equal. f_equal.
    unfold share. fold W. assert (0 < W + 1 / 100 * bin_variance b) by lra. field. repeat split; lra. }
  destruct C as (u & C). exists u. fold variance_of wv. rewrite (nth_error_map2 _ _ _ _ _ _ EV C). reflexivity.
Qed.
End Estimate.

(** ** The loop with one group *)
Section Single.
Variables (gm : R -> R) (bppf : R -> R -> R -> R) (erfinv : R -> R) (bad : R).
Variables (g : group) (cfg : settings) (rate : nat -> nat -> R) (D : list sample).
Hypothesis HB : binned_rows [g] D.
Hypothesis HW : Forall (fun s => 0 < x_w s) D.
Hypothesis HD : D <> [].
Hypothesis HR : forall it i, 0 <= rate it i <= 1.
Hypothesis HS : g_smoother g = bin_values.
Hypothesis HM : g_mnl g = false \/ Forall (fun s => ~ missing_entry (x_bins s 0%nat)) D.
Hypothesis HH : c_hier cfg = false \/ g_hier g = true.
Hypothesis Hlog : c_log cfg = false.
Hypothesis Hagg : c_aggregate cfg = true.
Notation y := (map x_y D).
Notation w := (map x_w D).
Notation f := (bind_group D 0 g).
Notation kd := LocationRegressor.
Notation calc := (fun i (_ : nat) p => map (estimate_value bad) (group_estimates gm bppf erfinv kd [f] y w i p)).
Notation smooth := (fun i (_ : nat) p => group_smoother gm bppf erfinv bad kd [g] [f] y w i p).
Notation loss := (fun p => kind_loss bad kd y w (p_factors p)).
Notation nf := (new_factors calc smooth (kind_calibration kd [f] w) rate).
Notation lex := (f_lex f).
Notation start scale := {| p_factors := repeat scale (length D); p_exponents := zeros (length D) |}.
Notation L j := (nth j lex 0%nat).
Notation n := (length D).

Lemma len : length lex = n.
Proof. apply lex_len. Qed.
Lemma bound b : In b lex -> (b < S (f_finite f))%nat.
Proof.
  intro I. apply (f_lex_bound f b); [exact (Hdim1 g D HB)|exact (rows_len g D HB)|exact I].
Qed.
Lemma bound_at j : (j < n)%nat -> (L j < S (f_finite f))%nat.
Proof. intro J. apply bound, nth_In. rewrite len. exact J. Qed.
Lemma finite_at j : (j < n)%nat -> g_mnl g = true -> (L j < f_finite f)%nat.
Proof.
  intros J M. destruct HM as [X|X]; [congruence|]. destruct (nth_error D j) as [s|] eqn:E; [|apply nth_error_None in E; lia].
  rewrite Forall_forall in X. specialize (X s (nth_error_In _ _ E)).
  destruct (row_finite_semi_positive (x_bins s 0%nat)) eqn:S; [|apply semi_positive_iff in S; contradiction].
  exact (proj2 (proj2 (lex_row f (Hdim1 g D HB) (rows_len g D HB) (rows_whole g D HB) j _ (row_at g D j s E) S))).
Qed.
Lemma py : per_row lex y.
Proof. unfold per_row. rewrite map_length, len. reflexivity. Qed.
Lemma pw : per_row lex w.
Proof. unfold per_row. rewrite map_length, len. reflexivity. Qed.
Lemma w_pos j : (j < n)%nat -> 0 < nth j w 0.
Proof.
  intro J. destruct (nth_error D j) as [s|] eqn:E; [|apply nth_error_None in E; lia].
  rewrite (nth_error_nth w j 0 (map_nth_error x_w j D E)). rewrite Forall_forall in HW. exact (HW s (nth_error_In _ _ E)).
Qed.
Lemma w_nonneg : EstimatorSpec.nonneg w.
Proof. intros x I. apply in_map_iff in I. destruct I as (s & <- & I). rewrite Forall_forall in HW. left. exact (HW s I). Qed.
Lemma n_pos : (0 < n)%nat.
Proof. destruct D; [contradiction|cbn; lia]. Qed.
Notation wt := (fun j => nth j w 0).
Lemma w_sum : sumR w = RegularizeSpec.total n wt.
Proof. rewrite sumR_total, map_length. reflexivity. Qed.
Lemma w_total : 0 < RegularizeSpec.total n wt.
Proof. apply total_all_pos; [exact n_pos|exact w_pos]. Qed.
Lemma w_nz : sumR w <> 0.
Proof. rewrite w_sum. pose proof w_total. lra. Qed.
Lemma in_row j : (j < n)%nat -> row_in lex (L j) j.
Proof. intro J. apply nth_error_nth'. rewrite len. exact J. Qed.
Lemma bin_pos j : (j < n)%nat -> 0 < bin_sum lex (at_row w) (L j).
Proof.
  intro J. apply bin_sum_pos.
  - intros i _. apply nonneg_at, w_nonneg.
  - exists j. split; [apply in_row, J|apply w_pos, J].
Qed.

Definition mu (j : nat) : R := bin_mean lex y w (L j).
Definition sh (j : nat) : R := share lex y w (L j).
Lemma sh_range j : (j < n)%nat -> 0 < sh j <= 1.
Proof. intro J. exact (share_range lex y w w_nonneg (L j) (bin_pos j J)). Qed.
Lemma low_exists : exists low, 0 < low /\ forall j, (j < n)%nat -> low <= sh j <= 1.
Proof.
  assert (K : forall k, (k <= n)%nat -> exists low, 0 < low /\ forall j, (j < k)%nat -> low <= sh j <= 1).
  { induction k as [|k IH]; intro H; [exists 1; split; [lra|intros; lia]|].
    destruct (IH ltac:(lia)) as (low & P & Q). pose proof (sh_range k ltac:(lia)) as S. exists (Rmin low (sh k)). split.
    - apply Rmin_glb_lt; lra.
    - intros j J. destruct (Nat.eq_dec j k) as [->|N].
      + split; [apply Rmin_r|lra].
      + specialize (Q j ltac:(lia)). pose proof (Rmin_l low (sh k)). lra. }
  exact (K n (le_n _)).
Qed.

Notation av := (avg n wt).
Notation nrm := (norm n wt).

Lemma calibrated v j : length v = S (f_finite f) -> (j < n)%nat ->
  nth (L j) (kind_calibration kd [f] w 0%nat v) 0 = nth (L j) v 0 - av (fun i => nth (L i) v 0).
Proof.
  intros LV J. unfold kind_calibration, location_calibration. cbn [nth_error].
  assert (T0 : forall i, (i < n)%nat -> f_mnl f = true -> L i <> f_finite f).
  { intros i I M. pose proof (finite_at i I M). lia. }
  destruct (calibrate_zero (f_mnl f) lex w (f_finite f) v pw) as (C1 & C2 & _ & C4).
  - intros b Hb. pose proof (bound b Hb). lia.
  - exact LV.
  - destruct (f_mnl f) eqn:M; [|exact w_nz].
    rewrite (map2_total _ lex w 0%nat 0) by (rewrite len, map_length; reflexivity). rewrite len.
    rewrite (total_ext n _ wt); [pose proof w_total; lra|]. intros i I. cbv beta. rewrite (proj2 (Nat.eqb_neq _ _)) by (apply T0; auto). reflexivity.
  - set (v' := calibrate _ _ _) in *.
    assert (E : forall i, (i < n)%nat -> nth (L i) v' 0 = nth (L i) v 0 + (nth (L j) v' 0 - nth (L j) v 0)).
    { intros i I. pose proof (C4 (L i) (L j)) as X. pose proof (bound_at i I). pose proof (bound_at j J).
      specialize (X ltac:(lia) ltac:(lia) (fun M => conj (T0 i I M) (T0 j J M))). lra. }
    rewrite (map2_total _ lex w 0%nat 0) in C2 by (rewrite len, map_length; reflexivity). rewrite len in C2.
    set (k := nth (L j) v' 0 - nth (L j) v 0) in *.
    rewrite (total_ext n _ (fun i => nth i w 0 * nth (L i) v 0 + nth i w 0 * k)) in C2.
    2:{ intros i I. cbv beta. rewrite (E i I). ring. }
    rewrite total_plus, total_scal_r in C2. pose proof w_total as WT.
    assert (K : k = - av (fun i => nth (L i) v 0)).
    { unfold avg. apply (Rmult_eq_reg_r (RegularizeSpec.total n wt)); [|lra].
      replace (- (RegularizeSpec.total n (fun i => nth i w 0 * nth (L i) v 0) / RegularizeSpec.total n wt) * RegularizeSpec.total n wt)
        with (- RegularizeSpec.total n (fun i => nth i w 0 * nth (L i) v 0)) by (field; lra).
      lra. }
    unfold k in K. lra.
Qed.

Lemma factor_step s it p r j : s_zero s = false -> length (p_factors p) = n -> (j < n)%nat ->
  (forall i, (i < n)%nat -> nth i (p_factors p) 0 = mu i - r i) ->
  (forall i k, (i < n)%nat -> (k < n)%nat -> L i = L k -> r i = r k) ->
  nth (L j) (snd (nf 0%nat f s it p)) 0 = r j - pass n wt sh (rate it 0%nat) r j.
Proof.
  intros Z LP J Hp Hc. unfold new_factors. cbn [snd]. cbv zeta.
  assert (Pp : per_row lex (p_factors p)) by (unfold per_row; rewrite LP, len; reflexivity).
  set (vals := map (estimate_value bad) (group_estimates gm bppf erfinv kd [f] y w 0%nat p)) in *.
  assert (LV : length vals = S (f_finite f)).
  { unfold vals. rewrite map_length. unfold group_estimates. cbn [nth_error estimates]. unfold location_parameters. cbv zeta.
    assert (X : length (precalc_variance_y lex (S (f_finite f)) y w) = S (f_finite f)) by (unfold precalc_variance_y; rewrite map_length, seq_length; reflexivity).
    rewrite map2_len; [exact X|]. rewrite X. unfold calc_factors_generic. rewrite map_length, seq_length. reflexivity. }
  assert (EST : forall i, (i < n)%nat -> nth (L i) vals 0 = sh i * r i).
  { intros i I. unfold vals, group_estimates. cbn [nth_error estimates].
    destruct (location_value lex (S (f_finite f)) y w py pw w_nonneg w_nz (p_factors p) (L i) (r i) Pp (bound_at i I) (bin_pos i I)) as (u & E).
    - intros k K. unfold row_in in K. assert (Kl : (k < n)%nat) by (rewrite <- len; apply nth_error_Some; congruence).
      assert (LK : L k = L i) by (apply nth_error_nth; exact K).
      rewrite (Hp k Kl), (Hc k i Kl I LK). unfold mu. rewrite LK. reflexivity.
    - apply nth_error_nth. rewrite nth_error_map, E. reflexivity. }
  set (fs := map _ (seq 0 (f_finite f)) ++ _).
  assert (LM : forall (h : nat -> R), length (map h (seq 0 (f_finite f))) = f_finite f) by (intros; rewrite map_length, seq_length; reflexivity).
  assert (FS : forall i, (i < n)%nat -> nth (L i) fs 0 = rate it 0%nat * (sh i * r i)).
  { intros i I. unfold fs. pose proof (bound_at i I) as BI. destruct (Nat.eq_dec (L i) (f_finite f)) as [Q|Q].
    - rewrite Q, app_nth2 by (rewrite LM; lia). rewrite LM, Nat.sub_diag. cbn [nth].
      destruct (f_mnl f) eqn:M; [pose proof (finite_at i I M); lia|]. rewrite <- Q, (EST i I). ring.
    - rewrite app_nth1 by (rewrite LM; lia). rewrite (nth_map_lt _ _ (L i) 0%nat) by (rewrite seq_length; lia). rewrite seq_nth by lia. cbn [plus].
      rewrite Z. unfold group_smoother. cbn [nth_error]. rewrite HS. unfold bin_values.
      rewrite (nth_error_nth' _ 0) by (rewrite firstn_length, LV; lia). rewrite nth_firstn_lt by lia. rewrite (EST i I). reflexivity. }
  assert (LF : length fs = S (f_finite f)) by (unfold fs; rewrite app_length, LM; cbn; lia).
  rewrite (calibrated fs j LF J), (FS j J).
  rewrite (avg_ext n wt _ (fun i => rate it 0%nat * (sh i * r i))) by (intros; apply FS; assumption).
  rewrite (avg_scal n wt w_total). unfold pass. ring.
Qed.

(** ** Loss *)
Definition within : R := RegularizeSpec.total n (fun j => nth j w 0 * ((nth j y 0 - mu j) * (nth j y 0 - mu j))).
Definition bin_constant (r : nat -> R) : Prop := forall i k, (i < n)%nat -> (k < n)%nat -> L i = L k -> r i = r k.

Lemma mu_constant : bin_constant mu.
Proof. intros i k _ _ E. unfold mu. rewrite E. reflexivity. Qed.
Lemma sh_constant : bin_constant sh.
Proof. intros i k _ _ E. unfold sh. rewrite E. reflexivity. Qed.

Lemma residuals_orthogonal r : bin_constant r -> RegularizeSpec.total n (fun j => nth j w 0 * (nth j y 0 - mu j) * r j) = 0.
Proof.
  intro C. rewrite <- len. apply (bins_orthogonal lex (fun j => nth j w 0 * (nth j y 0 - mu j)) r (S (f_finite f)) bound).
  - intros j J. rewrite len in J. pose proof (bin_pos j J) as P.
    rewrite (bin_sum_ext_in lex _ (fun i => nth i w 0 * nth i y 0 + (- mu j) * nth i w 0)).
    + rewrite (bin_sum_plus lex (fun i => nth i w 0 * nth i y 0)), (bin_sum_scal lex (- mu j) (fun i => nth i w 0)).
      unfold mu, bin_mean. cbv beta in P |- *. field. lra.
    + intros i I. unfold row_in in I. assert (Li : (i < n)%nat) by (rewrite <- len; apply nth_error_Some; congruence).
      rewrite (mu_constant i j Li J) by (apply nth_error_nth; exact I). ring.
  - intros i j I J E. rewrite len in I, J. exact (C i j I J E).
Qed.

Lemma loss_value p r : length (p_factors p) = n -> (forall i, (i < n)%nat -> nth i (p_factors p) 0 = mu i - r i) -> bin_constant r ->
  loss p * RegularizeSpec.total n wt = within + nrm r.
Proof.
  intros LP Hp C. unfold kind_loss, squared_loss. cbn [kind_link]. rewrite w_sum. pose proof w_total as WT.
  set (pr := map (unlink_func Identity) (p_factors p)).
  assert (LR : length pr = n) by (unfold pr; rewrite map_length; exact LP).
  assert (NR : forall i, (i < n)%nat -> nth i pr 0 = mu i - r i).
  { intros i I. unfold pr. rewrite (nth_map_lt _ _ i 0) by lia. rewrite (Hp i I). reflexivity. }
  rewrite (map2_total Rmult _ w 0 0) by (rewrite map2_len; rewrite ?map_length; congruence).
  rewrite map2_len by (rewrite map_length; congruence). rewrite LR.
  rewrite (total_ext n _ (fun j => nth j w 0 * ((nth j y 0 - mu j) * (nth j y 0 - mu j)) +
    (2 * (nth j w 0 * (nth j y 0 - mu j) * r j) + nth j w 0 * (r j * r j)))).
  2:{ intros j J. rewrite (at_map2 lex _ pr y j) by (unfold per_row; rewrite ?map_length, ?len; lia). rewrite (NR j J). ring. }
  rewrite total_plus, total_plus, total_scal, (residuals_orthogonal r C). unfold within, norm. field. lra.
Qed.

Definition res (scale : R) (T : nat) : nat -> R := passes n wt sh (fun k => rate k 0%nat) (fun j => mu j - scale) T.
Lemma res_constant scale T : bin_constant (res scale T).
Proof.
  intros i k I K E. unfold res. apply passes_same; [apply sh_constant; assumption|]. rewrite (mu_constant i k I K E). reflexivity.
Qed.

(** The training data differ enough from the baseline. *)
Definition enough (scale : R) : Prop :=
  26 * nrm (rest n wt sh (av (fun j => mu j - scale))) <= within + nrm (fun j => mu j - scale).

Lemma start_at scale i : (i < n)%nat -> nth i (p_factors (start scale)) 0 = mu i - (mu i - scale).
Proof. intro I. cbn [p_factors]. replace (mu i - (mu i - scale)) with scale by ring. apply nth_error_nth, nth_error_repeat, I. Qed.

Lemma no_divergence scale p T : enough scale -> length (p_factors p) = n ->
  (forall i, (i < n)%nat -> nth i (p_factors p) 0 = mu i - res scale T i) -> is_diverged (loss (start scale)) (loss p) = false.
Proof.
  intros EN LP Hp. pose proof (loss_value p _ LP Hp (res_constant scale T)) as L1.
  pose proof (loss_value (start scale) (fun j => mu j - scale) ltac:(cbn [p_factors]; apply repeat_length) (start_at scale)) as L0.
  specialize (L0 ltac:(intros i k I K E; rewrite (mu_constant i k I K E); reflexivity)).
  destruct low_exists as (low & PL & HL).
  pose proof (passes_norm n wt sh low (fun j J => Rlt_le _ _ (w_pos j J)) w_total PL HL (fun k => rate k 0%nat) (fun j => mu j - scale) (fun k => HR k 0%nat) T) as B.
  fold (res scale T) in B. unfold enough in EN.
  assert (W0 : 0 <= within).
  { apply total_nonneg. intros j J. pose proof (w_pos j J). apply Rmult_le_pos; [lra|]. apply Rle_0_sqr. }
  pose proof (norm_nonneg n wt (fun j J => Rlt_le _ _ (w_pos j J)) (fun j => mu j - scale)) as N0.
  unfold is_diverged. apply Rltb_false. pose proof w_total as WT. apply (Rmult_le_reg_r (RegularizeSpec.total n wt)); [exact WT|].
  cbv beta in L0, L1 |- *. rewrite L1. replace (kind_loss bad kd y w (p_factors (start scale)) * 2 * RegularizeSpec.total n wt)
    with (2 * (kind_loss bad kd y w (p_factors (start scale)) * RegularizeSpec.total n wt)) by ring. rewrite L0. lra.
Qed.

(** ** Passes *)
Definition reached (scale : R) (st : state) : Prop :=
  plen n (t_preds st) /\ (exists s, t_feats st = [s] /\ s_zero s = false /\ (t_iter st <> 0%nat -> s_agg s <> None)) /\ 0 <= t_delta st /\
  t_isdiv st = false /\ t_loss st = loss (t_preds st) /\
  forall j, (j < n)%nat -> nth j (p_factors (t_preds st)) 0 = mu j - res scale (t_iter st) j.

Lemma reached_next scale st : enough scale -> reached scale st ->
  exists st', iteration cfg [f] calc smooth (kind_calibration kd [f] w) rate loss (loss (start scale)) st = Ok st' /\
  reached scale st' /\ t_iter st' = S (t_iter st).
Proof.
  intros EN ((L1 & L2) & (s & Es & Z & _) & _ & ND & _ & H).
  unfold iteration. rewrite Es. cbn [features_pass]. rewrite (not_skipped g cfg D HH).
  unfold feature_iteration. rewrite Hagg. cbv zeta.
  destruct (nf 0%nat f s (t_iter st) (t_preds st)) as [un fs] eqn:EQ.
  unfold visit_factors, limit_factors. rewrite Hlog. cbn [andb s_factors].
  assert (FS : forall j, (j < n)%nat -> nth (L j) fs 0 = res scale (t_iter st) j - res scale (S (t_iter st)) j).
  { intros j J. pose proof (factor_step s (t_iter st) (t_preds st) (res scale (t_iter st)) j Z L1 J H (res_constant scale _)) as X.
    rewrite EQ in X. cbn [snd] in X. exact X. }
  set (p' := add_preds (f_ext f) (t_preds st) (gather fs lex)).
  assert (LP' : plen n p').
  { unfold p'. cbn [f_ext bind_group add_preds]. split; cbn [p_factors p_exponents]; [|exact L2].
    unfold vadd. rewrite map2_len; [exact L1|]. rewrite gather_length, len. exact L1. }
  assert (H' : forall j, (j < n)%nat -> nth j (p_factors p') 0 = mu j - res scale (S (t_iter st)) j).
  { intros j J. unfold p'. cbn [f_ext bind_group add_preds p_factors].
    rewrite nth_vadd by (rewrite gather_length, len; exact L1). rewrite nth_gather by (rewrite len; exact J).
    rewrite (H j J), (FS j J). ring. }
  pose proof (no_divergence scale p' (S (t_iter st)) EN (proj1 LP') H') as DV. cbv beta in DV |- *.
  rewrite DV. cbn [andb]. eexists. split; [reflexivity|]. split; [|reflexivity].
  split; [exact LP'|]. split; [|split; [apply deviation_nonneg|split; [reflexivity|split; [reflexivity|exact H']]]].
  eexists. split; [reflexivity|]. split; [exact Z|]. intros _. discriminate.
Qed.

Lemma reached_loop scale : enough scale -> forall fuel st st', reached scale st ->
  loop cfg [f] calc smooth (kind_calibration kd [f] w) rate loss fuel (loss (start scale)) st = Some (Ok st') -> reached scale st'.
Proof.
  intro EN. induction fuel as [|fuel IH]; intros st st' G E; cbn [loop] in E; destruct (continues cfg st); try discriminate.
  1, 3: injection E as E; assert (E' : st' = st) by
    (unfold finish in E; destruct (forallb _ _); [|discriminate]; match type of E with context [(is_diverged ?a ?b && ?c)%bool] => destruct (is_diverged a b && c)%bool end; [discriminate|congruence]);
    rewrite E'; exact G.
  destruct (reached_next scale st EN G) as (s1 & E1 & G1 & _). rewrite E1 in E. exact (IH s1 st' G1 E).
Qed.

Lemma reached_init scale : reached scale (init_state [f] loss (start scale)).
Proof.
  split; [apply (start_shaped [g] D HB scale)|]. split.
  - exists (init_fstate f). split; [reflexivity|split; [reflexivity|]]. intro X. contradiction.
  - split; [cbn; lra|]. split; [reflexivity|]. split; [reflexivity|]. intros j J. exact (start_at scale j J).
Qed.

Lemma all_passes scale : enough scale -> c_hier cfg = false -> c_minfactor cfg < 0 -> c_minloss cfg < 0 -> c_maxiter cfg <> 0%nat ->
  forall fuel st, reached scale st -> (t_iter st + fuel = c_maxiter cfg)%nat ->
  exists st', loop cfg [f] calc smooth (kind_calibration kd [f] w) rate loss fuel (loss (start scale)) st = Some (Ok st') /\ t_iter st' = c_maxiter cfg.
Proof.
  intros EN H0 H1 H2 H3. induction fuel as [|fuel IH]; intros st RE N.
  - pose proof RE as ((L1 & _) & (s & Es & _ & SA) & DE & ND & LO & H). rewrite Nat.add_0_r in N.
    assert (CT : continues cfg st = false).
    { unfold continues, check_stop, stop_iterations, veto_hierarchical. rewrite ND, H0, N, Nat.leb_refl, andb_false_r. reflexivity. }
    exists st. split; [|exact N]. cbn [loop]. rewrite CT. unfold finish. rewrite Es. cbn [forallb].
    destruct (s_agg s) as [a|]; [|exfalso; apply SA; congruence]. cbn [andb].
    pose proof (no_divergence scale (t_preds st) (t_iter st) EN L1 H) as IV. cbv beta in IV, LO |- *. rewrite LO, IV. reflexivity.
  - pose proof RE as (_ & (s & Es & _ & SA) & DE & ND & _ & _).
    assert (CT : continues cfg st = true).
    { unfold continues, check_stop, stop_iterations, stop_factor_change, stop_loss_change.
      rewrite (proj2 (Nat.leb_gt _ _)) by lia. rewrite (proj2 (Rleb_false _ _)) by lra.
      rewrite (proj2 (Rleb_false _ _)) by (pose proof (Rabs_pos (t_losschange st)); lra). reflexivity. }
    destruct (reached_next scale st EN RE) as (s1 & E1 & R1 & N1). cbn [loop]. rewrite CT, E1. apply IH; [exact R1|lia].
Qed.

Lemma fit_all_passes scale : kind_scale kd y w = Some scale -> enough scale ->
  c_hier cfg = false -> c_minfactor cfg < 0 -> c_minloss cfg < 0 -> c_maxiter cfg <> 0%nat ->
  exists t, whole_fit gm bppf erfinv bad kd false [g] cfg rate (c_maxiter cfg) D = Trained t /\ o_iterations t = c_maxiter cfg.
Proof.
  intros E EN H0 H1 H2 H3. destruct (all_passes scale EN H0 H1 H2 H3 (c_maxiter cfg) _ (reached_init scale) eq_refl) as (st & Lo & N).
  unfold whole_fit. rewrite E. cbv zeta. unfold train. cbv zeta. unfold fit_main. cbn [linked_column prior_predictions bind_groups].
  cbv beta in Lo |- *. rewrite Lo. eexists. split; [reflexivity|exact N].
Qed.

Lemma trained_level scale fuel t : kind_scale kd y w = Some scale -> enough scale ->
  whole_fit gm bppf erfinv bad kd false [g] cfg rate fuel D = Trained t ->
  length (whole_predict kd false t D) = n /\
  forall j, (j < n)%nat -> nth j (whole_predict kd false t D) 0 = mu j - res scale (o_iterations t) j.
Proof.
  intros KS EN F. unfold whole_fit in F. rewrite KS in F. cbv zeta in F.
  set (off := kind_offset kd scale _ w) in F. clearbody off.
  destruct (train gm bppf erfinv bad kd false [g] cfg rate fuel D scale off) as [[st|e]|] eqn:E; try discriminate. injection F as <-. cbn [o_scale o_iterations].
  destruct (start_shaped [g] D HB scale) as (W & Ls). destruct (bind_shaped D [g] (start scale) HB (proj1 Ls) (proj2 Ls)) as (_ & Hd & Hwh).
  unfold train in E. cbv zeta in E. cbn [linked_column prior_predictions] in E.
  pose proof (insample_all cfg [f] calc smooth (kind_calibration kd [f] w) rate loss (start scale) n W (loop_per_bin gm bppf erfinv bad kd _ _ _) fuel st E Hagg Hd (fun f Hf _ => Hwh f Hf)) as IA.
  rewrite (same_rows x_bins D [f] (bind_rows D [g])), trained_store in IA by (unfold trained_model; rewrite map_length, combine_length; lia).
  assert (RE : reached scale st).
  { unfold fit_main in E. exact (reached_loop scale EN fuel _ st (reached_init scale) E). }
  match goal with |- length (whole_predict _ _ ?m _) = _ /\ _ => assert (PE : whole_predict kd false m D = p_factors (t_preds st)) end.
  { unfold whole_predict. cbn [o_scale o_offset o_groups]. unfold cb_predict. cbn [linked_column prior_predictions]. rewrite map_length.
    transitivity (map (kind_output kd) (p_factors (t_preds st))); [exact (f_equal (fun q => map (kind_output kd) (p_factors q)) IA)|]. rewrite map_ext with (g := fun x => x) by reflexivity. apply map_id. }
  rewrite PE. destruct RE as ((L1 & _) & _ & _ & _ & _ & H). split; [exact L1|exact H].
Qed.

(** ** In terms of the rows *)
Lemma overall_total v : overall v D = RegularizeSpec.total n (fun j => nth j (map v D) 0).
Proof.
  assert (E : forall l, overall v l = sumR (map v l)) by (induction l as [|a l IH]; [reflexivity|unfold overall in *; cbn [cell_sum map sumR]; rewrite IH; reflexivity]).
  rewrite E, sumR_total, map_length. reflexivity.
Qed.
Lemma at_sample (v : sample -> R) j s : nth_error D j = Some s -> nth j (map v D) 0 = v s.
Proof. intro E. exact (nth_error_nth (map v D) j 0 (map_nth_error v j D E)). Qed.
Lemma sample_at j : (j < n)%nat -> exists s, nth_error D j = Some s.
Proof. intro J. destruct (nth_error D j) as [s|] eqn:E; [eauto|apply nth_error_None in E; lia]. Qed.

Lemma cell_rows j s cell v : nth_error D j = Some s -> cell_of D s cell ->
  cell_sum cell v D = bin_sum lex (fun i => nth i (map v D) 0) (L j).
Proof.
  intros E C. apply (cell_sum_bin cell v D lex (L j) len). intros i s' Ei. rewrite (C s' (nth_error_In _ _ Ei)).
  pose proof (lex_same f (Hdim1 g D HB) (rows_len g D HB) (rows_whole g D HB) j i _ _ (row_at g D j s E) (row_at g D i s' Ei)) as LS. split.
  - intro S. symmetry. apply LS. exact S.
  - intro S. apply LS. symmetry. exact S.
Qed.
Lemma cell_rows' j s cell v u : nth_error D j = Some s -> cell_of D s cell -> (forall i s', nth_error D i = Some s' -> v s' = u i) ->
  cell_sum cell v D = bin_sum lex u (L j).
Proof.
  intros E C H. rewrite (cell_rows j s cell v E C). apply bin_sum_ext. intros i I. rewrite len in I.
  destruct (sample_at i I) as (s' & E'). rewrite (at_sample v i s' E'). exact (H i s' E').
Qed.
Lemma overall' v u : (forall i s', nth_error D i = Some s' -> v s' = u i) -> overall v D = RegularizeSpec.total n u.
Proof.
  intro H. rewrite overall_total. apply total_ext. intros i I. destruct (sample_at i I) as (s' & E'). rewrite (at_sample v i s' E'). exact (H i s' E').
Qed.

Lemma mean_of_all : weighted_mean y w = Some (mean_target D).
Proof.
  unfold weighted_mean. rewrite (proj2 (Reqb_false_iff _ _) w_nz). f_equal. unfold mean_target. f_equal.
  - rewrite (map2_total Rmult y w 0 0) by (rewrite !map_length; reflexivity). rewrite map_length. symmetry. apply overall'.
    intros i s E. rewrite (at_sample x_y i s E), (at_sample x_w i s E). ring.
  - rewrite w_sum. symmetry. apply overall'. intros i s E. rewrite (at_sample x_w i s E). reflexivity.
Qed.
Lemma scale_is : kind_scale kd y w = Some (mean_target D + 1 / 1000).
Proof. unfold kind_scale, global_scale. rewrite mean_of_all. reflexivity. Qed.
Lemma prior_is : prior_of y w = target_variance D.
Proof.
  unfold prior_of, variance_prior. rewrite mean_of_all. cbv zeta. unfold target_variance. cbv zeta.
  assert (E : sumR (map2 (fun yi wi => (yi - mean_target D) * (yi - mean_target D) * wi) y w) / sumR w
    = overall (fun s => x_w s * (x_y s - mean_target D) ^ 2) D / overall x_w D).
  { f_equal.
    - rewrite (map2_total _ y w 0 0) by (rewrite !map_length; reflexivity). rewrite map_length. symmetry. apply overall'.
      intros i s E. rewrite (at_sample x_y i s E), (at_sample x_w i s E). ring.
    - f_equal. rewrite w_sum. symmetry. apply overall'. intros i s E. rewrite (at_sample x_w i s E). reflexivity. }
  rewrite E. set (v := overall _ D / overall x_w D). destruct (Rle_dec v (1 / 1000000000)) as [Q|Q].
  - rewrite (proj2 (Rleb_iff _ _) Q). reflexivity.
  - rewrite (proj2 (Rleb_false _ _)) by lra. reflexivity.
Qed.

Lemma cell_weight_is j s cell : nth_error D j = Some s -> cell_of D s cell -> cell_weight cell D = bin_sum lex (at_row w) (L j).
Proof. intros E C. apply (cell_rows' j s cell _ _ E C). intros i s' E'. symmetry. exact (at_sample x_w i s' E'). Qed.
Lemma cell_mean_is j s cell : nth_error D j = Some s -> cell_of D s cell -> mean_of_cell cell D = mu j.
Proof.
  intros E C. unfold mean_of_cell, mu, bin_mean. rewrite (cell_weight_is j s cell E C). f_equal.
  apply (cell_rows' j s cell _ _ E C). intros i s' E'. rewrite (at_sample x_y i s' E'), (at_sample x_w i s' E'). reflexivity.
Qed.
Lemma reluctance_is j s cell : nth_error D j = Some s -> cell_of D s cell -> reluctance cell D = / sh j.
Proof.
  intros E C. unfold reluctance, sh, share. rewrite Rinv_inv. unfold cell_variance, bin_variance.
  rewrite (cell_weight_is j s cell E C), (cell_mean_is j s cell E C), <- prior_is. unfold mu.
  rewrite (cell_rows' j s cell _ (fun i => nth i w 0 * (nth i y 0 - bin_mean lex y w (L j)) ^ 2) E C); [reflexivity|].
  intros i s' E'. rewrite (at_sample x_y i s' E'), (at_sample x_w i s' E'). reflexivity.
Qed.

Lemma drift : av (fun j => mu j - (mean_target D + 1 / 1000)) = - (1 / 1000).
Proof.
  pose proof w_total as WT. rewrite (avg_ext n wt _ (fun j => mu j + - (mean_target D + 1 / 1000))) by (intros; ring). rewrite (avg_plus n wt WT mu (fun _ => - (mean_target D + 1 / 1000))), (avg_const n wt WT).
  assert (E : av mu = mean_target D); [|rewrite E; ring].
  unfold avg, mean_target. f_equal.
  - pose proof (residuals_orthogonal (fun _ => 1) ltac:(intros ? ? ? ? ?; reflexivity)) as O.
    rewrite (total_ext n _ (fun j => nth j w 0 * nth j y 0 - nth j w 0 * mu j)) in O by (intros; ring). rewrite total_minus in O.
    rewrite (overall' _ (fun j => nth j w 0 * nth j y 0)); [lra|].
    intros i s E. rewrite (at_sample x_y i s E), (at_sample x_w i s E). reflexivity.
  - symmetry. apply overall'. intros i s E. symmetry. exact (at_sample x_w i s E).
Qed.

Section Same.
Variable same : sample -> sample -> bool.
Hypothesis HC : bins_of D same.
Notation scale := (mean_target D + 1 / 1000).

Lemma mean_reluctance_is : mean_reluctance same D = av (fun j => / sh j).
Proof.
  unfold mean_reluctance, avg. f_equal; [|f_equal].
  - apply overall'. intros i s E. rewrite (at_sample x_w i s E), (reluctance_is i s (same s) E (HC s (nth_error_In _ _ E))). reflexivity.
  - apply overall'. intros i s E. symmetry. exact (at_sample x_w i s E).
Qed.
Lemma excess_is j s : nth_error D j = Some s -> excess same D s = - rest n wt sh (av (fun j => mu j - scale)) j.
Proof.
  intro E. assert (J : (j < n)%nat) by (apply nth_error_Some; congruence).
  unfold excess, rest. rewrite drift, mean_reluctance_is, (reluctance_is j s (same s) E (HC s (nth_error_In _ _ E))).
  destruct low_exists as (low & PL & HL).
  pose proof (inverse_ge n wt sh low (fun j J => Rlt_le _ _ (w_pos j J)) w_total PL HL) as I. pose proof (sh_range j J).
  field. lra.
Qed.

Lemma varied_enough : varied same D -> enough scale.
Proof.
  unfold varied, enough. intro V.
  pose proof (loss_value (start scale) (fun j => mu j - scale) ltac:(cbn [p_factors]; apply repeat_length) (start_at scale)
    ltac:(intros i k I K E; rewrite (mu_constant i k I K E); reflexivity)) as L0.
  rewrite <- L0. clear L0.
  rewrite (overall' _ (fun j => nth j w 0 * (rest n wt sh (av (fun j => mu j - scale)) j * rest n wt sh (av (fun j => mu j - scale)) j))) in V.
  2:{ intros i s E. rewrite (at_sample x_w i s E), (excess_is i s E). ring. }
  unfold norm. eapply Rle_trans; [exact V|]. right.
  unfold kind_loss, squared_loss. cbn [kind_link p_factors]. rewrite w_sum. pose proof w_total as WT.
  unfold Rdiv at 2. rewrite Rmult_assoc, Rinv_l by lra. rewrite Rmult_1_r.
  rewrite (map2_total Rmult _ w 0 0) by (rewrite map2_len; rewrite !map_length; [rewrite repeat_length|rewrite repeat_length]; reflexivity).
  rewrite map2_len by (rewrite !map_length, repeat_length; reflexivity). rewrite map_length, repeat_length.
  apply overall'. intros i s E. assert (I : (i < n)%nat) by (apply nth_error_Some; congruence).
  rewrite (at_map2 lex _ (map (unlink_func Identity) (repeat scale n)) y i) by (unfold per_row; rewrite ?map_length, ?repeat_length, ?len; lia).
  rewrite (nth_map_lt _ _ i 0) by (rewrite repeat_length; exact I). rewrite (nth_error_nth _ _ 0 (nth_error_repeat scale I)).
  rewrite (at_sample x_y i s E), (at_sample x_w i s E). cbn [unlink_func]. ring.
Qed.

Theorem location_passes : varied same D -> c_hier cfg = false -> c_minfactor cfg < 0 -> c_minloss cfg < 0 -> c_maxiter cfg <> 0%nat ->
  exists t, whole_fit gm bppf erfinv bad kd false [g] cfg rate (c_maxiter cfg) D = Trained t /\ o_iterations t = c_maxiter cfg.
Proof. intro V. apply (fit_all_passes scale scale_is (varied_enough V)). Qed.

Lemma location_distance low rho : 0 < low -> (forall j, (j < n)%nat -> low <= sh j <= 1) ->
  0 <= rho -> (forall it i, rho <= rate it i <= 1) -> varied same D -> forall fuel t j s p,
  whole_fit gm bppf erfinv bad kd false [g] cfg rate fuel D = Trained t -> nth_error D j = Some s ->
  nth_error (whole_predict kd false t D) j = Some p ->
  x_w s * (p - (mean_of_cell (same s) D + excess same D s)) ^ 2 <=
    nrm (fun j => mu j - scale - rest n wt sh (av (fun j => mu j - scale)) j) * (1 - rho * low) ^ o_iterations t.
Proof.
  intros PL HL Hrho Hrate V.
  set (r0 := fun j => mu j - scale).
  intros fuel t j s p F E P. assert (J : (j < n)%nat) by (apply nth_error_Some; congruence).
  destruct (trained_level scale fuel t scale_is (varied_enough V) F) as (LP & H).
  rewrite (nth_error_nth' _ 0) in P by lia. injection P as <-. rewrite (H j J), (cell_mean_is j s (same s) E (HC s (nth_error_In _ _ E))), (excess_is j s E).
  pose proof (passes_close n wt sh low (fun j J => Rlt_le _ _ (w_pos j J)) w_total PL HL (fun k => rate k 0%nat) r0 rho ltac:(lra) (fun k => Hrate k 0%nat) (o_iterations t)) as B.
  eapply Rle_trans; [|exact B].
  pose proof (norm_at n wt (fun j J => Rlt_le _ _ (w_pos j J)) (fun j => passes n wt sh (fun k => rate k 0%nat) r0 (o_iterations t) j - rest n wt sh (av r0) j) j J) as Q.
  eapply Rle_trans; [|exact Q]. right. rewrite (at_sample x_w j s E). unfold res, r0. ring.
Qed.

Theorem excess_range s : In s D -> 0 < excess same D s <= 1 / 1000 * reluctance (same s) D.
Proof.
  intro I. destruct (In_nth_error _ _ I) as (j & E). assert (J : (j < n)%nat) by (apply nth_error_Some; congruence).
  unfold excess. rewrite mean_reluctance_is, (reluctance_is j s (same s) E (HC s I)).
  destruct low_exists as (low & PL & HL).
  pose proof (inverse_ge n wt sh low (fun j J => Rlt_le _ _ (w_pos j J)) w_total PL HL) as Q. pose proof (sh_range j J) as S.
  assert (P : 0 < / sh j) by (apply Rinv_0_lt_compat; lra). set (h := / sh j) in *. set (H := av _) in *. clearbody h H.
  assert (0 < / H <= 1) by (split; [apply Rinv_0_lt_compat; lra|apply Rle_trans with (/ 1); [apply Rinv_le_contravar; lra|lra]]).
  replace (h / H) with (h * / H) by reflexivity. set (k := / H) in *. clearbody k. split; nra.
Qed.
Theorem excess_mean : overall (fun s => x_w s * excess same D s) D = 1 / 1000 * overall x_w D.
Proof.
  pose proof w_total as WT. destruct low_exists as (low & PL & HL).
  pose proof (rest_avg n wt sh low (fun j J => Rlt_le _ _ (w_pos j J)) WT PL HL (- (1 / 1000))) as A.
  rewrite (overall' (fun s => x_w s * excess same D s) (fun j => (-1) * (nth j w 0 * rest n wt sh (- (1 / 1000)) j))).
  2:{ intros i s E. rewrite (at_sample x_w i s E), (excess_is i s E), drift. ring. }
  rewrite (overall' x_w wt) by (intros i s E; symmetry; exact (at_sample x_w i s E)).
  rewrite total_scal. unfold avg in A. apply (f_equal (fun v => v * RegularizeSpec.total n wt)) in A.
  unfold Rdiv at 1 in A. rewrite Rmult_assoc, Rinv_l in A by lra. lra.
Qed.
End Same.
End Single.

(** Some of the facts above do not depend on the settings. *)
Definition any_cfg : settings := {| c_log := false; c_aggregate := true; c_hier := false; c_thier := 0; c_maxiter := 0; c_minfactor := 0; c_minloss := 0 |}.
Definition id_fun (x : R) : R := x.
Definition id_fun3 (x _ _ : R) : R := x.
Definition no_rate (_ _ : nat) : R := 0.
Lemma no_rate_range (it i : nat) : 0 <= no_rate it i <= 1.
Proof. unfold no_rate. lra. Qed.

Theorem excess_bounds g D : binned_rows [g] D -> Forall (fun s => 0 < x_w s) D ->
  (g_mnl g = false \/ Forall (fun s => ~ missing_entry (x_bins s 0%nat)) D) -> forall same, bins_of D same -> D <> [] ->
  (forall s, In s D -> 0 < excess same D s <= 1 / 1000 * reluctance (same s) D) /\
  overall (fun s => x_w s * excess same D s) D = 1 / 1000 * overall x_w D.
Proof.
  intros HB HW HM same HC HD. split.
  - exact (excess_range id_fun id_fun3 id_fun 0 g any_cfg no_rate D HB HW HD no_rate_range HM same HC).
  - exact (excess_mean id_fun id_fun3 id_fun 0 g any_cfg no_rate D HB HW HD no_rate_range HM same HC).
Qed.

Theorem location_limit gm bppf erfinv bad g rate D : binned_rows [g] D -> Forall (fun s => 0 < x_w s) D -> g_smoother g = bin_values ->
  (g_mnl g = false \/ Forall (fun s => ~ missing_entry (x_bins s 0%nat)) D) ->
  forall same, bins_of D same -> varied same D ->
  forall rho, 0 < rho -> (forall it i, rho <= rate it i <= 1) -> forall j s eps, nth_error D j = Some s -> 0 < eps ->
  exists enough, forall cfg fuel t p,
    (c_hier cfg = false \/ g_hier g = true) -> c_log cfg = false -> c_aggregate cfg = true ->
    whole_fit gm bppf erfinv bad LocationRegressor false [g] cfg rate fuel D = Trained t -> (enough <= o_iterations t)%nat ->
    nth_error (whole_predict LocationRegressor false t D) j = Some p ->
    Rabs (p - (mean_of_cell (same s) D + excess same D s)) <= eps.
Proof.
  intros HB HW HS HM same HC V rho Hrho HR j s eps E He.
  assert (HD : D <> []) by (intros ->; destruct j; discriminate).
  assert (HR0 : forall it i, 0 <= rate it i <= 1) by (intros it i; specialize (HR it i); lra).
  assert (Ws : 0 < x_w s) by (rewrite Forall_forall in HW; exact (HW s (nth_error_In _ _ E))).
  destruct (low_exists id_fun id_fun3 id_fun 0 g any_cfg no_rate D HW no_rate_range) as (low & PL & HL).
  set (C := norm (length D) (fun j => nth j (map x_w D) 0) (fun j => mu g D j - (mean_target D + 1 / 1000) -
    rest (length D) (fun j => nth j (map x_w D) 0) (sh g D) (avg (length D) (fun j => nth j (map x_w D) 0) (fun j => mu g D j - (mean_target D + 1 / 1000))) j)).
  assert (C0 : 0 <= C) by (apply norm_nonneg; intros i I; left; exact (w_pos id_fun id_fun3 id_fun 0 g any_cfg no_rate D HW no_rate_range i I)).
  assert (L1 : low <= 1) by (pose proof (HL 0%nat ltac:(destruct D; [contradiction|cbn; lia])); lra). assert (R1 : rho <= 1) by (specialize (HR 0%nat 0%nat); lra).
  assert (Q1 : 0 < rho * low <= 1) by (split; nra).
  assert (T : 0 < x_w s * eps ^ 2 / (1 + C)).
  { apply Rdiv_lt_0_compat; [|lra]. apply Rmult_lt_0_compat; [exact Ws|apply pow_lt, He]. }
  destruct (pow_lt_1_zero (1 - rho * low) ltac:(rewrite Rabs_pos_eq; lra) _ T) as (T0 & HT0). exists T0.
  intros cfg fuel t p HH HL0 HA F HI P.
  pose proof (location_distance gm bppf erfinv bad g cfg rate D HB HW HD HR0 HS HM HH HL0 HA same HC low rho PL HL ltac:(lra) HR V fuel t j s p F E P) as B.
  fold C in B. specialize (HT0 (o_iterations t) HI). rewrite Rabs_pos_eq in HT0 by (apply pow_le; lra).
  assert (PP : 0 <= (1 - rho * low) ^ o_iterations t) by (apply pow_le; lra).
  set (q := (1 - rho * low) ^ o_iterations t) in *. clearbody q. set (z := p - _) in *. clearbody z C.
  assert (B2 : x_w s * z ^ 2 <= x_w s * eps ^ 2).
  { eapply Rle_trans; [exact B|]. apply Rle_trans with ((1 + C) * (x_w s * eps ^ 2 / (1 + C))); [|right; field; lra].
    apply Rmult_le_compat; lra. }
  assert (B3 : z ^ 2 <= eps ^ 2) by (apply Rmult_le_reg_l with (x_w s); assumption).
  apply Rsqr_le_abs_0 in B3 || (rewrite <- !Rsqr_pow2 in B3; apply Rsqr_le_abs_0 in B3). rewrite (Rabs_pos_eq eps) in B3 by lra. exact B3.
Qed.

(** The mean target is not missed by more than a thousandth, and a little more where a bin
    has little weight. *)
Theorem location_near gm bppf erfinv bad g rate D : binned_rows [g] D -> Forall (fun s => 0 < x_w s) D -> g_smoother g = bin_values ->
  (g_mnl g = false \/ Forall (fun s => ~ missing_entry (x_bins s 0%nat)) D) ->
  forall same, bins_of D same -> varied same D ->
  forall rho, 0 < rho -> (forall it i, rho <= rate it i <= 1) -> forall j s eps, nth_error D j = Some s -> 0 < eps ->
  exists enough, forall cfg fuel t p,
    (c_hier cfg = false \/ g_hier g = true) -> c_log cfg = false -> c_aggregate cfg = true ->
    whole_fit gm bppf erfinv bad LocationRegressor false [g] cfg rate fuel D = Trained t -> (enough <= o_iterations t)%nat ->
    nth_error (whole_predict LocationRegressor false t D) j = Some p ->
    Rabs (p - mean_of_cell (same s) D) <= 1 / 1000 * reluctance (same s) D + eps.
Proof.
  intros HB HW HS HM same HC V rho Hrho HR j s eps E He.
  destruct (location_limit gm bppf erfinv bad g rate D HB HW HS HM same HC V rho Hrho HR j s eps E He) as (N & H). exists N.
  intros cfg fuel t p HH HL HA F HI P. specialize (H cfg fuel t p HH HL HA F HI P).
  assert (HD : D <> []) by (intros ->; destruct j; discriminate).
  pose proof (proj1 (excess_bounds g D HB HW HM same HC HD) s (nth_error_In _ _ E)) as X.
  revert H. unfold Rabs. repeat destruct (Rcase_abs _); lra.
Qed.

(** The predictions stay above the mean target. *)
Theorem location_above gm bppf erfinv bad g rate D : binned_rows [g] D -> Forall (fun s => 0 < x_w s) D -> g_smoother g = bin_values ->
  (g_mnl g = false \/ Forall (fun s => ~ missing_entry (x_bins s 0%nat)) D) ->
  forall same, bins_of D same -> varied same D ->
  forall rho, 0 < rho -> (forall it i, rho <= rate it i <= 1) -> forall j s, nth_error D j = Some s ->
  exists enough, forall cfg fuel t p,
    (c_hier cfg = false \/ g_hier g = true) -> c_log cfg = false -> c_aggregate cfg = true ->
    whole_fit gm bppf erfinv bad LocationRegressor false [g] cfg rate fuel D = Trained t -> (enough <= o_iterations t)%nat ->
    nth_error (whole_predict LocationRegressor false t D) j = Some p ->
    mean_of_cell (same s) D + excess same D s / 2 <= p.
Proof.
  intros HB HW HS HM same HC V rho Hrho HR j s E.
  assert (HD : D <> []) by (intros ->; destruct j; discriminate).
  pose proof (proj1 (excess_bounds g D HB HW HM same HC HD) s (nth_error_In _ _ E)) as X.
  destruct (location_limit gm bppf erfinv bad g rate D HB HW HS HM same HC V rho Hrho HR j s (excess same D s / 2) E ltac:(lra)) as (N & H). exists N.
  intros cfg fuel t p HH HL HA F HI P. specialize (H cfg fuel t p HH HL HA F HI P).
  revert H. unfold Rabs. destruct (Rcase_abs _); lra.
Qed.
