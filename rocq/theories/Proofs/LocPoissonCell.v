(** What a single feature group of the Poisson-like location regressor learns without smoothing. *)
From Coq Require Import ZArith QArith List Bool Reals Lia Lra Psatz.
From Verif.Model Require Import Num LexBins Train Predict Link Estimators Regularize BinSmoothers WholeFit.
From Verif.Spec Require Import TrainSpec DataSpec LexSpec PredictSpec LinkSpec EstimatorSpec RegularizeSpec InsampleSpec CellSpec LocationCellSpec LocPoissonCellSpec.
From Verif.Proofs Require Import TrainFacts TrainExamples LexFacts PredictFacts ImportanceFacts LinkFacts EstimatorFacts LocationFacts CentredFacts InsampleFacts PipeMonotone TotalFacts DescentFacts CellFacts CentredDescent LocationCell.
Import ListNotations.
Local Open Scope R_scope.

(** ** The estimate of a bin whose rows have the same prediction *)
Section Estimate.
Variables (lex : list nat) (n : nat) (y w : list R) (std : R).
Hypothesis Hy : per_row lex y.
Hypothesis Hw : per_row lex w.
Hypothesis Pw : EstimatorSpec.nonneg w.
Hypothesis ES : weighted_stddev y w = Some std.
Hypothesis PS : 0 < std.
Definition typical (b : nat) : R := bin_sum lex (fun j => nth j w 0 ^ 2) b / bin_sum lex (at_row w) b.
Definition lshare (b : nat) : R := bin_sum lex (at_row w) b / (bin_sum lex (at_row w) b + (typical b / std) ^ 2).

Lemma typical_pos b : 0 < bin_sum lex (at_row w) b -> 0 < typical b.
Proof.
  intro P. unfold typical. apply Rdiv_lt_0_compat; [|exact P].
  destruct (Rlt_dec 0 (bin_sum lex (fun j => nth j w 0 ^ 2) b)) as [|N]; [assumption|exfalso].
  assert (Z : forall j, row_in lex b j -> nth j w 0 = 0).
  { intros j J. destruct (Rle_lt_or_eq_dec 0 (nth j w 0) (nonneg_at w j Pw)) as [Q|Q]; [|auto]. exfalso. apply N. apply bin_sum_pos.
    - intros i _. apply pow2_ge_0.
    - exists j. split; [exact J|]. apply pow_lt, Q. }
  rewrite (bin_sum_ext_in lex _ (fun _ => 0 * 0)) in P; [rewrite bin_sum_scal in P; lra|]. intros j J. cbv beta. rewrite (Z j J). ring.
Qed.
Lemma lshare_range b : 0 < bin_sum lex (at_row w) b -> 0 < lshare b < 1.
Proof.
  intro P. pose proof (typical_pos b P) as T. unfold lshare. set (W := bin_sum lex (at_row w) b) in *. set (c := (typical b / std) ^ 2).
  assert (C : 0 < c) by (apply pow_lt, Rdiv_lt_0_compat; assumption). split; [apply Rdiv_lt_0_compat; lra|].
  apply (Rmult_lt_reg_r (W + c)); [lra|]. unfold Rdiv. rewrite Rmult_assoc, Rinv_l by lra. lra.
Qed.

Lemma locpoisson_value p b v : per_row lex p -> (b < n)%nat -> 0 < bin_sum lex (at_row w) b -> 0 < v ->
  (forall j, row_in lex b j -> nth j p 0 = v) ->
  nth_error (locpoisson_parameters lex n y w p) b = Some (Some (lshare b * (bin_mean lex y w b - v), typical b)).
Proof.
  intros Hp Hb PW PV HV. pose proof (typical_pos b PW) as PT.
  unfold locpoisson_parameters. rewrite nth_error_map, (nth_error_nth' _ 0%nat) by (rewrite seq_length; auto).
  rewrite seq_nth by auto. cbn [option_map plus]. rewrite ES. cbv zeta.
  set (pr := map (fun s => if Rltb 0 s then s else 0) p). set (va := map (fun q => if Rleb q 0 then 1 else q) pr).
  assert (Lp : per_row lex pr) by (unfold per_row, pr; rewrite map_length; exact Hp).
  assert (Lv : per_row lex va) by (unfold per_row, va; rewrite map_length; exact Lp).
  assert (Ap : forall j, row_in lex b j -> nth j pr 0 = v).
  { intros j J. unfold pr. rewrite (at_map lex _ p j Hp (row_in_lt _ _ _ J)), (HV j J), (proj2 (Rltb_iff _ _) PV). reflexivity. }
  assert (Av : forall j, row_in lex b j -> nth j va 0 = v).
  { intros j J. unfold va. rewrite (at_map lex _ pr j Lp (row_in_lt _ _ _ J)), (Ap j J), (proj2 (Rleb_false _ _)) by lra. reflexivity. }
  set (W := bin_sum lex (at_row w) b) in *.
  assert (E1 : bin_total lex (map2 Rdiv (map2 Rmult w (map2 Rminus y pr)) va) b = W / v * (bin_mean lex y w b - v)).
  { rewrite bin_total_sum by (repeat apply pr_map2; assumption).
    rewrite (bin_sum_ext_in lex _ (fun j => / v * (nth j w 0 * nth j y 0 + (- v) * nth j w 0))).
    - rewrite bin_sum_scal, (bin_sum_plus lex (fun j => nth j w 0 * nth j y 0)), (bin_sum_scal lex (- v) (fun j => nth j w 0)). fold W. unfold bin_mean. fold W. field. lra.
    - intros j J. cbv beta. pose proof (row_in_lt _ _ _ J) as Lj.
      rewrite (at_map2 lex Rdiv) by (repeat apply pr_map2; assumption). rewrite (at_map2 lex Rmult) by (repeat apply pr_map2; assumption).
      rewrite (at_map2 lex Rminus) by assumption. rewrite (Ap j J), (Av j J). unfold Rdiv. ring. }
  assert (E2 : bin_total lex (map2 Rdiv w va) b = W / v).
  { rewrite bin_total_sum by (apply pr_map2; assumption). rewrite (bin_sum_ext_in lex _ (fun j => / v * nth j w 0)).
    - rewrite bin_sum_scal. fold W. unfold Rdiv. ring.
    - intros j J. cbv beta. rewrite (at_map2 lex Rdiv) by (try assumption; exact (row_in_lt _ _ _ J)). rewrite (Av j J). unfold Rdiv. ring. }
  assert (E3 : bin_total lex (map2 (fun wi v => wi ^ 2 / v) w va) b = typical b * (W / v)).
  { rewrite bin_total_sum by (apply pr_map2; assumption). rewrite (bin_sum_ext_in lex _ (fun j => / v * nth j w 0 ^ 2)).
    - rewrite (bin_sum_scal lex (/ v) (fun j => nth j w 0 ^ 2)). unfold typical. fold W. field. lra.
    - intros j J. cbv beta. rewrite (at_map2 lex (fun wi v => wi ^ 2 / v)) by (try assumption; exact (row_in_lt _ _ _ J)). rewrite (Av j J). unfold Rdiv. ring. }
  assert (E4 : bin_total lex w b = W) by (rewrite bin_total_sum by assumption; reflexivity).
  unfold locpoisson_bin. rewrite E1, E2, E3, E4. assert (PD : 0 < W / v) by (apply Rdiv_lt_0_compat; assumption).
  rewrite (proj2 (Rltb_iff _ _) PD). replace (typical b * (W / v) / (W / v)) with (typical b) by (field; lra).
  rewrite (proj2 (Rltb_iff _ _) PT). rewrite (proj2 (Reqb_false_iff _ _)) by lra. do 3 f_equal.
  unfold lshare. fold W. set (u := typical b) in *. assert (0 < u ^ 2) by (apply pow_lt; auto). assert (0 < std ^ 2) by (apply pow_lt; auto).
  assert (0 < W * std ^ 2) by (apply Rmult_lt_0_compat; lra). clearbody W u. field. repeat split; lra.
Qed.
End Estimate.

Lemma overall_nonneg D : Forall (fun s => 0 < x_w s) D ->
  0 <= overall x_w D /\ (Forall (fun s => 0 <= x_y s) D -> 0 <= overall (fun s => x_w s * x_y s) D).
Proof.
  induction 1 as [|s D P _ (I1 & I2)]; unfold overall in *; cbn [cell_sum]; [split; intros; lra|].
  split; [lra|]. intro F. inversion F; subst. specialize (I2 H2). assert (0 <= x_w s * x_y s) by (apply Rmult_le_pos; lra). lra.
Qed.

(** ** The loop with one group *)
Section Single.
Variables (gm : R -> R) (bppf : R -> R -> R -> R) (erfinv : R -> R) (bad : R).
Variables (g : group) (cfg : settings) (rate : nat -> nat -> R) (D : list sample).
Hypothesis HB : binned_rows [g] D.
Hypothesis HW : Forall (fun s => 0 < x_w s) D.
Hypothesis HT : poisson_targets D.
Hypothesis HR : forall it i, 0 <= rate it i <= 1.
Hypothesis HS : g_smoother g = bin_values.
Hypothesis HH : c_hier cfg = false \/ g_hier g = true.
Hypothesis Hlog : c_log cfg = false.
Hypothesis Hagg : c_aggregate cfg = true.
Notation y := (map x_y D).
Notation w := (map x_w D).
Notation f := (bind_group D 0 g).
Notation kd := LocPoissonRegressor.
Notation calc := (fun i (_ : nat) p => map (estimate_value bad) (group_estimates gm bppf erfinv kd [f] y w i p)).
Notation smooth := (fun i (_ : nat) p => group_smoother gm bppf erfinv bad kd [g] [f] y w i p).
Notation loss := (fun p => kind_loss bad kd y w (p_factors p)).
Notation nf := (new_factors calc smooth (kind_calibration kd [f] w) rate).
Notation lex := (f_lex f).
Notation start scale := {| p_factors := repeat scale (length D); p_exponents := zeros (length D) |}.
Notation L j := (nth j lex 0%nat).
Notation n := (length D).
(* The facts about bins and sums do not depend on the treatment of missing values. *)
Notation g1 := {| g_dim := g_dim g; g_hier := g_hier g; g_mnl := false; g_smoother := g_smoother g |}.
Notation scale := (mean_target D + 1 / 1000).
Notation std := (target_spread D).
Notation mu j := (bin_mean lex y w (L j)).

Lemma HB1 : binned_rows [g1] D.
Proof.
  destruct HB as (A & B & C). split; [|split; [|exact C]].
  - intros s i h I H. destruct i as [|i]; [|destruct i; discriminate]. injection H as <-. exact (A s 0%nat g I eq_refl).
  - intros h [<-|[]]. exact (B g (or_introl eq_refl)).
Qed.
Lemma HD : D <> [].
Proof. destruct HT as (_ & s & _ & I & _). intros ->. contradiction. Qed.

Lemma mean_nonneg : 0 <= mean_target D.
Proof.
  destruct HT as (P & _). unfold mean_target. apply Rmult_le_pos; [exact (proj2 (overall_nonneg D HW) P)|].
  destruct (Rle_lt_or_eq_dec 0 _ (proj1 (overall_nonneg D HW))) as [Q|Q]; [left; apply Rinv_0_lt_compat, Q|]. rewrite <- Q, Rinv_0. lra.
Qed.
Lemma scale_pos : 0 < scale.
Proof. pose proof mean_nonneg. lra. Qed.

Lemma mean_all : weighted_mean y w = Some (mean_target D).
Proof. exact (mean_of_all id_fun id_fun3 id_fun 0 g1 any_cfg no_rate D HB1 HW HD no_rate_range (or_introl eq_refl)). Qed.
Lemma scale_is : kind_scale kd y w = Some scale.
Proof. unfold kind_scale, global_scale. rewrite mean_all. reflexivity. Qed.
Lemma std_is : weighted_stddev y w = Some std.
Proof.
  unfold weighted_stddev. rewrite mean_all. f_equal. unfold target_spread. f_equal. f_equal.
  - rewrite (map2_total _ w y 0 0) by (rewrite !map_length; reflexivity). rewrite map_length. symmetry.
    apply (overall' id_fun id_fun3 id_fun 0 g1 any_cfg no_rate D no_rate_range).
    intros i s E. rewrite (at_sample D x_y i s E), (at_sample D x_w i s E). reflexivity.
  - rewrite w_sum. f_equal. symmetry. apply (overall' id_fun id_fun3 id_fun 0 g1 any_cfg no_rate D no_rate_range).
    intros i s E. symmetry. exact (at_sample D x_w i s E).
Qed.
Lemma weight_total : 0 < RegularizeSpec.total n (fun j => nth j w 0).
Proof. exact (w_total id_fun id_fun3 id_fun 0 g1 any_cfg no_rate D HB1 HW HD no_rate_range (or_introl eq_refl)). Qed.
Lemma overall_weight : overall x_w D = RegularizeSpec.total n (fun j => nth j w 0).
Proof. apply (overall' id_fun id_fun3 id_fun 0 g1 any_cfg no_rate D no_rate_range). intros i s E. symmetry. exact (at_sample D x_w i s E). Qed.
Lemma std_pos : 0 < std.
Proof.
  unfold target_spread. apply sqrt_lt_R0. apply Rdiv_lt_0_compat; [|rewrite overall_weight; exact weight_total].
  destruct HT as (_ & s & s' & I & I' & N).
  assert (P : forall m l, Forall (fun s => 0 < x_w s) l -> 0 <= overall (fun s => x_w s * (x_y s - m) ^ 2) l /\
    forall s0, In s0 l -> x_y s0 <> m -> 0 < overall (fun s => x_w s * (x_y s - m) ^ 2) l).
  { intros m l. induction 1 as [|a l P _ (I1 & I2)]; [split; [unfold overall; cbn; lra|intros ? []]|]. unfold overall in *. cbn [cell_sum].
    pose proof (pow2_ge_0 (x_y a - m)). assert (0 <= x_w a * (x_y a - m) ^ 2) by (apply Rmult_le_pos; lra). split; [lra|].
    intros s0 [<-|J] X; [|specialize (I2 s0 J X); lra].
    assert (0 < x_w a * (x_y a - m) ^ 2); [|lra]. apply Rmult_lt_0_compat; [exact P|].
    destruct (Rtotal_order (x_y a) m) as [Q|[Q|Q]]; [nra|contradiction|nra]. }
  destruct (P (mean_target D) D HW) as (_ & Q). destruct (Req_dec (x_y s) (mean_target D)) as [X|X]; [|exact (Q s I X)].
  apply (Q s' I'). congruence.
Qed.

Lemma bin_weight j : (j < n)%nat -> 0 < bin_sum lex (at_row w) (L j).
Proof. exact (bin_pos id_fun id_fun3 id_fun 0 g1 any_cfg no_rate D HW no_rate_range j). Qed.
Lemma mu_nonneg j : (j < n)%nat -> 0 <= mu j.
Proof.
  intro J. unfold bin_mean. apply Rmult_le_pos; [|left; apply Rinv_0_lt_compat, bin_weight, J].
  apply bin_sum_nonneg. intros i _. apply Rmult_le_pos; [apply nonneg_at, w_nonneg, HW|apply nonneg_at].
  intros x I. apply in_map_iff in I. destruct I as (s & <- & I). destruct HT as (P & _). rewrite Forall_forall in P. exact (P s I).
Qed.

(** Rows without a value whose bin is not learned have no share. *)
Definition unlearned (j : nat) : bool := (g_mnl g && Nat.eqb (L j) (f_finite f))%bool.
Definition row_share (j : nat) : R := if unlearned j then 0 else lshare lex w std (L j).
Lemma row_share_range j : (j < n)%nat -> 0 <= row_share j < 1.
Proof.
  intro J. unfold row_share. destruct (unlearned j); [lra|]. pose proof (lshare_range lex w std (w_nonneg D HW) std_pos (L j) (bin_weight j J)). lra.
Qed.

Notation r1 := (fun k => rate k 0%nat).
Lemma left_range h T : 0 <= h < 1 -> 0 < distance_left r1 h T <= 1.
Proof.
  intro H. induction T as [|T IH]; cbn [distance_left]; [lra|]. pose proof (HR T 0%nat).
  assert (0 <= rate T 0%nat * h < 1) by (split; nra). set (a := rate T 0%nat * h) in *. clearbody a. split; nra.
Qed.
Definition res (T j : nat) : R := (mu j - scale) * distance_left r1 (row_share j) T.
Lemma res_constant T : bin_constant g D (res T).
Proof. intros i k _ _ E. unfold res, row_share, unlearned. rewrite E. reflexivity. Qed.
Lemma level_pos T j : (j < n)%nat -> 0 < mu j - res T j.
Proof.
  intro J. unfold res. pose proof (left_range (row_share j) T (row_share_range j J)) as Q. pose proof (mu_nonneg j J). pose proof scale_pos.
  set (q := distance_left _ _ _) in *. set (m := mu j) in *. set (s := scale) in *. clearbody q m s. nra.
Qed.

Lemma factor_step s it p j : s_zero s = false -> length (p_factors p) = n -> (j < n)%nat ->
  (forall i, (i < n)%nat -> nth i (p_factors p) 0 = mu i - res it i) ->
  nth (L j) (snd (nf 0%nat f s it p)) 0 = res it j - res (S it) j.
Proof.
  intros Z LP J Hp. unfold new_factors. cbn [snd]. cbv zeta. cbn [kind_calibration].
  assert (Pp : per_row lex (p_factors p)) by (unfold per_row; rewrite LP, len; reflexivity).
  set (vals := map (estimate_value bad) (group_estimates gm bppf erfinv kd [f] y w 0%nat p)) in *.
  assert (LV : length vals = S (f_finite f)).
  { unfold vals. rewrite map_length. unfold group_estimates. cbn [nth_error estimates]. unfold locpoisson_parameters. cbv zeta.
    rewrite map_length, seq_length. reflexivity. }
  assert (EST : nth (L j) vals 0 = lshare lex w std (L j) * res it j).
  { unfold vals, group_estimates. cbn [nth_error estimates].
    pose proof (locpoisson_value lex (S (f_finite f)) y w std (py g D) (pw g D) (w_nonneg D HW) std_is std_pos (p_factors p) (L j) (mu j - res it j) Pp (bound_at g D HB j J) (bin_weight j J) (level_pos it j J)) as E.
    apply nth_error_nth. rewrite nth_error_map, E; [cbn; do 2 f_equal; ring|].
    intros k K. unfold row_in in K. assert (Kl : (k < n)%nat) by (rewrite <- (len g); apply nth_error_Some; congruence).
    assert (LK : L k = L j) by (apply nth_error_nth; exact K).
    rewrite (Hp k Kl), (res_constant it k j Kl J LK), LK. reflexivity. }
  assert (LM : forall (h : nat -> R), length (map h (seq 0 (f_finite f))) = f_finite f) by (intros; rewrite map_length, seq_length; reflexivity).
  assert (ST : res it j - res (S it) j = rate it 0%nat * (row_share j * res it j)) by (unfold res; cbn [distance_left]; ring).
  rewrite ST. unfold row_share, unlearned. pose proof (bound_at g D HB j J) as BI. change (f_mnl f) with (g_mnl g).
  destruct (Nat.eqb_spec (L j) (f_finite f)) as [Q|Q].
  - rewrite Q at 1. rewrite app_nth2 by (rewrite LM; lia). rewrite LM, Nat.sub_diag. cbn [nth].
    destruct (g_mnl g); cbn [andb]; [ring|]. rewrite <- Q, EST. ring.
  - rewrite andb_false_r, app_nth1 by (rewrite LM; lia). rewrite (nth_map_lt _ _ (L j) 0%nat) by (rewrite seq_length; lia). rewrite seq_nth by lia. cbn [plus].
    rewrite Z. unfold group_smoother. cbn [nth_error]. rewrite HS. unfold bin_values.
    rewrite (nth_error_nth' _ 0) by (rewrite firstn_length, LV; lia). rewrite nth_firstn_lt by lia. rewrite EST. reflexivity.
Qed.

(** ** Loss *)
Notation wt := (fun j => nth j w 0).
Lemma loss_is p r : length (p_factors p) = n -> (forall i, (i < n)%nat -> nth i (p_factors p) 0 = mu i - r i) -> bin_constant g D r ->
  loss p * RegularizeSpec.total n wt = within g D + norm n wt r.
Proof. exact (loss_value id_fun id_fun3 id_fun bad g1 any_cfg no_rate D HB1 HW HD no_rate_range (or_introl eq_refl) p r). Qed.

Lemma first_at i : (i < n)%nat -> nth i (p_factors (start scale)) 0 = mu i - res 0 i.
Proof. intro I. cbn [p_factors]. unfold res. cbn [distance_left]. replace (mu i - (mu i - scale) * 1) with scale by ring. apply nth_error_nth, nth_error_repeat, I. Qed.
Lemma no_divergence p T : length (p_factors p) = n ->
  (forall i, (i < n)%nat -> nth i (p_factors p) 0 = mu i - res T i) -> is_diverged (loss (start scale)) (loss p) = false.
Proof.
  intros LP Hp. pose proof (loss_is p _ LP Hp (res_constant T)) as L1.
  pose proof (loss_is (start scale) _ ltac:(cbn [p_factors]; apply repeat_length) first_at (res_constant 0)) as L0.
  assert (NW : forall j, (j < n)%nat -> 0 < nth j w 0) by (intros j J; exact (w_pos id_fun id_fun3 id_fun 0 g1 any_cfg no_rate D HW no_rate_range j J)).
  assert (B : norm n wt (res T) <= norm n wt (res 0)).
  { unfold norm. apply total_le. intros j J. pose proof (NW j J). apply Rmult_le_compat_l; [lra|].
    unfold res. cbn [distance_left]. pose proof (left_range (row_share j) T (row_share_range j J)) as Q.
    set (q := distance_left _ _ T) in *. set (d := mu j - scale). clearbody q d.
    replace (d * q * (d * q)) with (d * d * (q * q)) by ring. replace (d * 1 * (d * 1)) with (d * d * 1) by ring.
    apply Rmult_le_compat_l; [apply Rle_0_sqr|nra]. }
  assert (W0 : 0 <= within g D).
  { apply total_nonneg. intros j J. pose proof (NW j J). apply Rmult_le_pos; [lra|]. apply Rle_0_sqr. }
  pose proof (norm_nonneg n wt (fun j J => Rlt_le _ _ (NW j J)) (res 0)) as N0.
  unfold is_diverged. apply Rltb_false. pose proof weight_total as WT. apply (Rmult_le_reg_r (RegularizeSpec.total n wt)); [exact WT|].
  cbv beta in L0, L1 |- *. rewrite L1. replace (kind_loss bad kd y w (p_factors (start scale)) * 2 * RegularizeSpec.total n wt)
    with (2 * (kind_loss bad kd y w (p_factors (start scale)) * RegularizeSpec.total n wt)) by ring. rewrite L0. lra.
Qed.

(** ** Passes *)
Definition reached (st : state) : Prop :=
  plen n (t_preds st) /\ (exists s, t_feats st = [s] /\ s_zero s = false /\ (t_iter st <> 0%nat -> s_agg s <> None)) /\ 0 <= t_delta st /\
  t_isdiv st = false /\ t_loss st = loss (t_preds st) /\
  forall j, (j < n)%nat -> nth j (p_factors (t_preds st)) 0 = mu j - res (t_iter st) j.

Lemma reached_next st : reached st ->
  exists st', iteration cfg [f] calc smooth (kind_calibration kd [f] w) rate loss (loss (start scale)) st = Ok st' /\
  reached st' /\ t_iter st' = S (t_iter st).
Proof.
  intros ((L1 & L2) & (s & Es & Z & _) & _ & ND & _ & H).
  unfold iteration. rewrite Es. cbn [features_pass]. rewrite (not_skipped g cfg D HH).
  unfold feature_iteration. rewrite Hagg. cbv zeta.
  destruct (nf 0%nat f s (t_iter st) (t_preds st)) as [un fs] eqn:EQ.
  unfold visit_factors, limit_factors. rewrite Hlog. cbn [andb s_factors].
  assert (FS : forall j, (j < n)%nat -> nth (L j) fs 0 = res (t_iter st) j - res (S (t_iter st)) j).
  { intros j J. pose proof (factor_step s (t_iter st) (t_preds st) j Z L1 J H) as X.
    rewrite EQ in X. cbn [snd] in X. exact X. }
  set (p' := add_preds (f_ext f) (t_preds st) (gather fs lex)).
  assert (LP' : plen n p').
  { unfold p'. cbn [f_ext bind_group add_preds]. split; cbn [p_factors p_exponents]; [|exact L2].
    unfold vadd. rewrite map2_len; [exact L1|]. rewrite gather_length, len. exact L1. }
  assert (H' : forall j, (j < n)%nat -> nth j (p_factors p') 0 = mu j - res (S (t_iter st)) j).
  { intros j J. unfold p'. cbn [f_ext bind_group add_preds p_factors].
    rewrite nth_vadd by (rewrite gather_length, len; exact L1). rewrite nth_gather by (rewrite len; exact J).
    rewrite (H j J), (FS j J). ring. }
  pose proof (no_divergence p' (S (t_iter st)) (proj1 LP') H') as DV. cbv beta in DV |- *.
  rewrite DV. cbn [andb]. eexists. split; [reflexivity|]. split; [|reflexivity].
  split; [exact LP'|]. split; [|split; [apply deviation_nonneg|split; [reflexivity|split; [reflexivity|exact H']]]].
  eexists. split; [reflexivity|]. split; [exact Z|]. intros _. discriminate.
Qed.

Lemma reached_loop : forall fuel st st', reached st ->
  loop cfg [f] calc smooth (kind_calibration kd [f] w) rate loss fuel (loss (start scale)) st = Some (Ok st') -> reached st'.
Proof.
  induction fuel as [|fuel IH]; intros st st' G E; cbn [loop] in E; destruct (continues cfg st); try discriminate.
  1, 3: injection E as E; assert (E' : st' = st) by
    (unfold finish in E; destruct (forallb _ _); [|discriminate]; match type of E with context [(is_diverged ?a ?b && ?c)%bool] => destruct (is_diverged a b && c)%bool end; [discriminate|congruence]);
    rewrite E'; exact G.
  destruct (reached_next st G) as (s1 & E1 & G1 & _). rewrite E1 in E. exact (IH s1 st' G1 E).
Qed.

Lemma reached_init : reached (init_state [f] loss (start scale)).
Proof.
  split; [apply (start_shaped [g] D HB scale)|]. split.
  - exists (init_fstate f). split; [reflexivity|split; [reflexivity|]]. intro X. contradiction.
  - split; [cbn; lra|]. split; [reflexivity|]. split; [reflexivity|]. intros j J. exact (first_at j J).
Qed.

Lemma all_passes : c_hier cfg = false -> c_minfactor cfg < 0 -> c_minloss cfg < 0 -> c_maxiter cfg <> 0%nat ->
  forall fuel st, reached st -> (t_iter st + fuel = c_maxiter cfg)%nat ->
  exists st', loop cfg [f] calc smooth (kind_calibration kd [f] w) rate loss fuel (loss (start scale)) st = Some (Ok st') /\ t_iter st' = c_maxiter cfg.
Proof.
  intros H0 H1 H2 H3. induction fuel as [|fuel IH]; intros st RE N.
  - pose proof RE as ((L1 & _) & (s & Es & _ & SA) & DE & ND & LO & H). rewrite Nat.add_0_r in N.
    assert (CT : continues cfg st = false).
    { unfold continues, check_stop, stop_iterations, veto_hierarchical. rewrite ND, H0, N, Nat.leb_refl, andb_false_r. reflexivity. }
    exists st. split; [|exact N]. cbn [loop]. rewrite CT. unfold finish. rewrite Es. cbn [forallb].
    destruct (s_agg s) as [a|]; [|exfalso; apply SA; congruence]. cbn [andb].
    pose proof (no_divergence (t_preds st) (t_iter st) L1 H) as IV. cbv beta in IV, LO |- *. rewrite LO, IV. reflexivity.
  - pose proof RE as (_ & (s & Es & _ & SA) & DE & ND & _ & _).
    assert (CT : continues cfg st = true).
    { unfold continues, check_stop, stop_iterations, stop_factor_change, stop_loss_change.
      rewrite (proj2 (Nat.leb_gt _ _)) by lia. rewrite (proj2 (Rleb_false _ _)) by lra.
      rewrite (proj2 (Rleb_false _ _)) by (pose proof (Rabs_pos (t_losschange st)); lra). reflexivity. }
    destruct (reached_next st RE) as (s1 & E1 & R1 & N1). cbn [loop]. rewrite CT, E1. apply IH; [exact R1|lia].
Qed.

Theorem locpoisson_passes : c_hier cfg = false -> c_minfactor cfg < 0 -> c_minloss cfg < 0 -> c_maxiter cfg <> 0%nat ->
  exists t, whole_fit gm bppf erfinv bad kd false [g] cfg rate (c_maxiter cfg) D = Trained t /\ o_iterations t = c_maxiter cfg.
Proof.
  intros H0 H1 H2 H3. destruct (all_passes H0 H1 H2 H3 (c_maxiter cfg) _ reached_init eq_refl) as (st & Lo & N).
  unfold whole_fit. rewrite scale_is. cbv zeta. unfold train. cbv zeta. unfold fit_main. cbn [linked_column prior_predictions bind_groups].
  cbv beta in Lo |- *. rewrite Lo. eexists. split; [reflexivity|exact N].
Qed.

Lemma trained_level fuel t :
  whole_fit gm bppf erfinv bad kd false [g] cfg rate fuel D = Trained t ->
  o_scale t = scale /\ length (whole_predict kd false t D) = n /\
  forall j, (j < n)%nat -> nth j (whole_predict kd false t D) 0 = mu j - res (o_iterations t) j.
Proof.
  intros F. unfold whole_fit in F. rewrite scale_is in F. cbv zeta in F.
  set (off := kind_offset kd scale _ w) in F. clearbody off.
  destruct (train gm bppf erfinv bad kd false [g] cfg rate fuel D scale off) as [[st|e]|] eqn:E; try discriminate. injection F as <-. cbn [o_scale o_iterations].
  destruct (start_shaped [g] D HB scale) as (W & Ls). destruct (bind_shaped D [g] (start scale) HB (proj1 Ls) (proj2 Ls)) as (_ & Hd & Hwh).
  unfold train in E. cbv zeta in E. cbn [linked_column prior_predictions] in E.
  pose proof (insample_all cfg [f] calc smooth (kind_calibration kd [f] w) rate loss (start scale) n W (loop_per_bin gm bppf erfinv bad kd _ _ _) fuel st E Hagg Hd (fun f Hf _ => Hwh f Hf)) as IA.
  rewrite (same_rows x_bins D [f] (bind_rows D [g])), trained_store in IA by (unfold trained_model; rewrite map_length, combine_length; lia).
  assert (RE : reached st).
  { unfold fit_main in E. exact (reached_loop fuel _ st reached_init E). }
  match goal with |- _ /\ length (whole_predict _ _ ?m _) = _ /\ _ => assert (PE : whole_predict kd false m D = map (kind_output kd) (p_factors (t_preds st))) end.
  { unfold whole_predict. cbn [o_scale o_offset o_groups]. unfold cb_predict. cbn [linked_column prior_predictions]. rewrite map_length.
    exact (f_equal (fun q => map (kind_output kd) (p_factors q)) IA). }
  rewrite PE. destruct RE as ((L1 & _) & _ & _ & _ & _ & H). split; [reflexivity|]. split; [rewrite map_length; exact L1|].
  intros j J. rewrite (nth_map_lt _ _ j 0) by lia. rewrite (H j J). cbn [kind_output]. rewrite (proj2 (Rltb_iff _ _) (level_pos (t_iter st) j J)). reflexivity.
Qed.

(** ** In terms of the rows *)
Lemma weight_is j s cell : nth_error D j = Some s -> cell_of D s cell -> cell_weight cell D = bin_sum lex (at_row w) (L j).
Proof. exact (cell_weight_is id_fun id_fun3 id_fun 0 g1 any_cfg no_rate D HB1 no_rate_range j s cell). Qed.
Lemma mean_is j s cell : nth_error D j = Some s -> cell_of D s cell -> mean_of_cell cell D = mu j.
Proof. exact (cell_mean_is id_fun id_fun3 id_fun 0 g1 any_cfg no_rate D HB1 no_rate_range j s cell). Qed.
Lemma share_is j s cell : nth_error D j = Some s -> cell_of D s cell -> learned_share cell D = lshare lex w std (L j).
Proof.
  intros E C. unfold learned_share, lshare, typical_weight, typical. rewrite (weight_is j s cell E C).
  rewrite (cell_rows' id_fun id_fun3 id_fun 0 g1 any_cfg no_rate D HB1 no_rate_range j s cell _ (fun i => nth i w 0 ^ 2) E C); [reflexivity|].
  intros i s' E'. rewrite (at_sample D x_w i s' E'). reflexivity.
Qed.
Lemma unlearned_is j s : nth_error D j = Some s -> unlearned j = true <-> g_mnl g = true /\ missing_entry (x_bins s 0%nat).
Proof.
  intro E. unfold unlearned. rewrite andb_true_iff, Nat.eqb_eq. destruct (row_finite_semi_positive (x_bins s 0%nat)) eqn:S.
  - pose proof (proj2 (proj2 (lex_row f (Hdim1 g D HB) (rows_len g D HB) (rows_whole g D HB) j _ (row_at g D j s E) S))) as Q.
    split; intros (M & X); [lia|]. apply semi_positive_iff in X. congruence.
  - apply semi_positive_iff in S. pose proof (lex_missing f (Hdim1 g D HB) (rows_len g D HB) j _ (row_at g D j s E) S). tauto.
Qed.

Theorem locpoisson_mean fuel t :
  whole_fit gm bppf erfinv bad kd false [g] cfg rate fuel D = Trained t ->
  o_scale t = scale /\ length (whole_predict kd false t D) = n /\
  forall j s cell, nth_error D j = Some s -> cell_of D s cell ->
    0 < learned_share cell D < 1 /\
    (~ (g_mnl g = true /\ missing_entry (x_bins s 0%nat)) ->
      nth_error (whole_predict kd false t D) j =
      Some (mean_of_cell cell D + (o_scale t - mean_of_cell cell D) * distance_left (fun it => rate it 0%nat) (learned_share cell D) (o_iterations t))) /\
    (g_mnl g = true /\ missing_entry (x_bins s 0%nat) -> nth_error (whole_predict kd false t D) j = Some (o_scale t)).
Proof.
  intro F. destruct (trained_level fuel t F) as (S & LP & H). split; [exact S|]. split; [exact LP|].
  intros j s cell E C. assert (J : (j < n)%nat) by (apply nth_error_Some; congruence).
  pose proof (H j J) as HJ. unfold res, row_share in HJ. rewrite S. pose proof (unlearned_is j s E) as U.
  rewrite (nth_error_nth' _ 0) by lia. rewrite HJ, (share_is j s cell E C), (mean_is j s cell E C). split; [|split].
  - exact (lshare_range lex w std (w_nonneg D HW) std_pos (L j) (bin_weight j J)).
  - intro N. destruct (unlearned j); [exfalso; apply N, U; reflexivity|]. f_equal. ring.
  - intro Y. apply U in Y. rewrite Y. f_equal.
    assert (Z : forall T, distance_left r1 0 T = 1) by (induction T as [|T IH]; cbn [distance_left]; [reflexivity|rewrite IH; ring]). rewrite Z. ring.
Qed.
End Single.

Lemma distance_left_small rate h rho : 0 < h < 1 -> 0 < rho -> (forall it, rho <= rate it <= 1) -> forall T, 0 <= distance_left rate h T <= (1 - rho * h) ^ T.
Proof.
  intros H Hr HR T. assert (rho <= 1) by (specialize (HR 0%nat); lra). induction T as [|T IH]; cbn [distance_left pow]; [lra|].
  specialize (HR T). set (q := (1 - rho * h) ^ T) in *. set (d := distance_left rate h T) in *. clearbody q d. set (a := rate T) in *. clearbody a.
  assert (0 <= 1 - a * h <= 1 - rho * h) by (split; nra). split; [apply Rmult_le_pos; lra|]. rewrite (Rmult_comm (1 - rho * h)). apply Rmult_le_compat; lra.
Qed.

Theorem locpoisson_limit gm bppf erfinv bad g rate D : binned_rows [g] D -> Forall (fun s => 0 < x_w s) D -> poisson_targets D -> g_smoother g = bin_values ->
  forall rho, 0 < rho -> (forall it i, rho <= rate it i <= 1) -> forall j s cell eps, nth_error D j = Some s -> cell_of D s cell ->
  ~ (g_mnl g = true /\ missing_entry (x_bins s 0%nat)) -> 0 < eps ->
  exists enough, forall cfg fuel t p,
    (c_hier cfg = false \/ g_hier g = true) -> c_log cfg = false -> c_aggregate cfg = true ->
    whole_fit gm bppf erfinv bad LocPoissonRegressor false [g] cfg rate fuel D = Trained t -> (enough <= o_iterations t)%nat ->
    nth_error (whole_predict LocPoissonRegressor false t D) j = Some p ->
    Rabs (p - mean_of_cell cell D) <= eps.
Proof.
  intros HB HW HT HS rho Hrho HR j s cell eps E C NM He.
  assert (HR0 : forall it i, 0 <= rate it i <= 1) by (intros it i; specialize (HR it i); lra).
  assert (J : (j < length D)%nat) by (apply nth_error_Some; congruence).
  set (h := learned_share cell D).
  assert (Hh : 0 < h < 1).
  { unfold h. rewrite (share_is g D HB j s cell E C).
    exact (lshare_range _ _ _ (w_nonneg D HW) (std_pos g D HB HW HT) _ (bin_weight g D HW j J)). }
  set (d := mean_target D + 1 / 1000 - mean_of_cell cell D).
  assert (R1 : rho <= 1) by (specialize (HR 0%nat 0%nat); lra).
  assert (Q1 : 0 < rho * h <= 1) by (split; nra).
  pose proof (Rabs_pos d) as D0.
  assert (T : 0 < eps / (1 + Rabs d)) by (apply Rdiv_lt_0_compat; lra).
  destruct (pow_lt_1_zero (1 - rho * h) ltac:(rewrite Rabs_pos_eq; lra) _ T) as (T0 & HT0). exists T0.
  intros cfg fuel t p HH HL HA F HI P.
  destruct (locpoisson_mean gm bppf erfinv bad g cfg rate D HB HW HT HR0 HS HH HL HA fuel t F) as (SC & _ & M).
  destruct (M j s cell E C) as (_ & MV & _). rewrite (MV NM) in P. injection P as <-. rewrite SC. fold h d.
  specialize (HT0 (o_iterations t) HI). rewrite Rabs_pos_eq in HT0 by (apply pow_le; lra).
  pose proof (distance_left_small (fun it => rate it 0%nat) h rho Hh Hrho (fun it => HR it 0%nat) (o_iterations t)) as B.
  set (q := distance_left _ _ _) in *. set (z := (1 - rho * h) ^ o_iterations t) in *. clearbody q z.
  replace (mean_of_cell cell D + d * q - mean_of_cell cell D) with (d * q) by ring. rewrite Rabs_mult, (Rabs_pos_eq q) by lra.
  apply Rle_trans with ((1 + Rabs d) * (eps / (1 + Rabs d))); [apply Rmult_le_compat; lra|right; field; lra].
Qed.
