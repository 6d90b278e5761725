(** The Poisson-like location regressor: two bins, and a negative target. *)
From Coq Require Import ZArith QArith Qround List Bool Reals Lra Lia.
From Verif.Model Require Import Num LexBins Train Predict Link Estimators WholeFit Regularize BinSmoothers.
From Verif.Spec Require Import DataSpec LexSpec PredictSpec RegularizeSpec InsampleSpec CellSpec LocationCellSpec LocPoissonCellSpec.
From Verif.Proofs Require Import TrainFacts LinkFacts LexFacts TrainExamples WholeExamples MetaExamples InsampleFacts DescentFacts DescentExamples CellFacts CellExamples LocationCell LocationCellExamples LocPoissonCell.
Import ListNotations.
Local Open Scope R_scope.

Lemma lp_targets : poisson_targets lc_data.
Proof.
  split; [repeat constructor; cbn; lra|]. exists (w_row 0 0 1), (w_row 1 10 2). split; [left; reflexivity|]. split; [right; right; left; reflexivity|]. cbn. lra.
Qed.
Lemma lp_spread : target_spread lc_data ^ 2 = 83 / 4.
Proof.
  unfold target_spread. rewrite lc_mean.
  replace (overall (fun s => x_w s * (x_y s - 11 / 2) ^ 2) lc_data / overall x_w lc_data) with (83 / 4) by (lc_sums; cbn; field).
  rewrite <- Rsqr_pow2. apply Rsqr_sqrt. lra.
Qed.
Lemma lp_share : learned_share (lc_same (w_row 0 0 1)) lc_data = 83 / 85.
Proof.
  unfold learned_share, typical_weight.
  replace (cell_weight (lc_same (w_row 0 0 1)) lc_data) with 2 by (lc_sums; cbn; ring).
  replace (cell_sum (lc_same (w_row 0 0 1)) (fun s => x_w s ^ 2) lc_data) with 2 by (lc_sums; cbn; ring).
  replace ((2 / 2 / target_spread lc_data) ^ 2) with (4 / 83); [field|].
  replace ((2 / 2 / target_spread lc_data) ^ 2) with (/ (target_spread lc_data ^ 2)).
  - rewrite lp_spread. field.
  - assert (0 < target_spread lc_data ^ 2) by (rewrite lp_spread; lra). field. intro Z. rewrite Z in H. lra.
Qed.

Theorem lp_case : forall gm bppf erfinv bad,
  binned_rows [plain_group] lc_data /\ Forall (fun s => 0 < x_w s) lc_data /\ poisson_targets lc_data /\
  cell_of lc_data (w_row 0 0 1) (lc_same (w_row 0 0 1)) /\
  mean_of_cell (lc_same (w_row 0 0 1)) lc_data = 1 /\ learned_share (lc_same (w_row 0 0 1)) lc_data = 83 / 85 /\
  (exists t, whole_fit gm bppf erfinv bad LocPoissonRegressor false [plain_group] (n_cfg 1) ex_rate 1 lc_data = Trained t /\
    nth_error (whole_predict LocPoissonRegressor false t lc_data) 0 = Some (1 + 4501 / 1000 * (2 / 85))) /\
  forall eps, 0 < eps -> exists cfg t p,
    whole_fit gm bppf erfinv bad LocPoissonRegressor false [plain_group] cfg ex_rate (c_maxiter cfg) lc_data = Trained t /\
    nth_error (whole_predict LocPoissonRegressor false t lc_data) 0 = Some p /\ Rabs (p - 1) <= eps.
Proof.
  intros gm bppf erfinv bad.
  assert (I0 : In (w_row 0 0 1) lc_data) by (left; reflexivity).
  assert (M : mean_of_cell (lc_same (w_row 0 0 1)) lc_data = 1) by exact (proj1 (lc_cells _ I0)).
  pose proof (lc_bins _ I0) as C. pose proof lp_share as H.
  assert (R1 : forall it i, 1 <= ex_rate it i <= 1) by (intros; unfold ex_rate; lra).
  assert (R0 : forall it i, 0 <= ex_rate it i <= 1) by (intros; unfold ex_rate; lra).
  assert (NM : ~ (g_mnl plain_group = true /\ missing_entry (x_bins (w_row 0 0 1) 0%nat))) by (intros (X & _); discriminate).
  assert (FIT : forall k, exists t, whole_fit gm bppf erfinv bad LocPoissonRegressor false [plain_group] (n_cfg (S k)) ex_rate (S k) lc_data = Trained t /\ o_iterations t = S k /\
    o_scale t = mean_target lc_data + 1 / 1000 /\
    nth_error (whole_predict LocPoissonRegressor false t lc_data) 0 = Some (1 + (o_scale t - 1) * distance_left (fun it => ex_rate it 0%nat) (83 / 85) (o_iterations t))).
  { intro k. destruct (locpoisson_passes gm bppf erfinv bad plain_group (n_cfg (S k)) ex_rate lc_data lc_binned lc_weights lp_targets R0 eq_refl (or_introl eq_refl) eq_refl eq_refl
      eq_refl ltac:(cbn; lra) ltac:(cbn; lra) ltac:(cbn; discriminate)) as (t & F & N). exists t. split; [exact F|]. split; [exact N|].
    destruct (locpoisson_mean gm bppf erfinv bad plain_group (n_cfg (S k)) ex_rate lc_data lc_binned lc_weights lp_targets R0 eq_refl (or_introl eq_refl) eq_refl eq_refl _ t F) as (S0 & _ & P).
    destruct (P 0%nat _ _ eq_refl C) as (_ & P1 & _). specialize (P1 NM). rewrite M, H in P1. split; [exact S0|exact P1]. }
  split; [exact lc_binned|]. split; [exact lc_weights|]. split; [exact lp_targets|]. split; [exact C|]. split; [exact M|]. split; [exact H|]. split.
  - destruct (FIT 0%nat) as (t & F & N & S0 & P). exists t. split; [exact F|]. rewrite P, N, S0, lc_mean. cbn [distance_left]. unfold ex_rate. f_equal. lra.
  - intros eps He.
    destruct (locpoisson_limit gm bppf erfinv bad plain_group ex_rate lc_data lc_binned lc_weights lp_targets eq_refl 1 ltac:(lra) R1 0%nat _ _ eps eq_refl C NM He) as (n & L). rewrite M in L.
    destruct (FIT n) as (t & F & N & _ & P). exists (n_cfg (S n)), t. eexists. split; [exact F|]. split; [exact P|].
    refine (L (n_cfg (S n)) _ t _ (or_introl eq_refl) eq_refl eq_refl F _ P). rewrite N. lia.
Qed.

(** ** A negative target *)
Definition neg_data : list sample := [w_row 0 (-1) 1; w_row 1 1 1].
Definition pos_part (a : R) : R := if Rltb 0 a then a else 0.
Notation next_low a := (a - (1 + pos_part a) / 2).
Notation next_high b := ((1 + b) / 2).
Notation preds2 a b := {| p_factors := [a; b]; p_exponents := zeros 2 |}.
Definition loss2 (a b : R) : R := ((a + 1) ^ 2 + (b - 1) ^ 2) / 2.

Lemma preds2_eq a b a' b' : a = a' -> b = b' -> preds2 a b = preds2 a' b'.
Proof. intros -> ->. reflexivity. Qed.

Section Negative.
Variables (gm : R -> R) (bppf : R -> R -> R -> R) (erfinv : R -> R) (bad : R) (cfg : settings).
Hypothesis Hlog : c_log cfg = false.
Hypothesis Hagg : c_aggregate cfg = true.
Hypothesis Hh : c_hier cfg = false.
Hypothesis H1 : c_minfactor cfg <= 1 / 1000.
Hypothesis H2 : c_minloss cfg <= 1 / 1000.
Hypothesis H3 : (7 <= c_maxiter cfg)%nat.
Notation D := neg_data.
Notation y := (map x_y D).
Notation w := (map x_w D).
Notation f := (bind_group D 0 plain_group).
Notation kd := LocPoissonRegressor.
Notation calc := (fun i (_ : nat) p => map (estimate_value bad) (group_estimates gm bppf erfinv kd [f] y w i p)).
Notation smooth := (fun i (_ : nat) p => group_smoother gm bppf erfinv bad kd [plain_group] [f] y w i p).
Notation loss := (fun p => kind_loss bad kd y w (p_factors p)).
Notation nf := (new_factors calc smooth (kind_calibration kd [f] w) ex_rate).
Notation init := (loss2 (1 / 1000) (1 / 1000)).
Notation step := (iteration cfg [f] calc smooth (kind_calibration kd [f] w) ex_rate loss init).

Lemma neg_lex : f_lex f = [0; 1]%nat.
Proof. reflexivity. Qed.
Lemma neg_finite : f_finite f = 2%nat.
Proof. reflexivity. Qed.
Lemma neg_loss a b : kind_loss bad kd y w [a; b] = loss2 a b.
Proof. unfold kind_loss, squared_loss, loss2. cbn. field. Qed.
Lemma neg_std : weighted_stddev y w = Some 1.
Proof.
  unfold weighted_stddev, weighted_mean. cbn [map neg_data w_row x_y x_w sumR map2]. rewrite (proj2 (Reqb_false_iff _ _)) by lra. f_equal.
  match goal with |- sqrt ?x = _ => replace x with 1 by field end. exact sqrt_1.
Qed.

Lemma neg_estimates a b : 0 < b -> locpoisson_parameters [0; 1]%nat 3 y w [a; b] = [Some (- ((1 + pos_part a) / 2), 1); Some ((1 - b) / 2, 1); Some (0, 1)].
Proof.
  intro Pb. unfold locpoisson_parameters. cbv zeta. rewrite neg_std. cbn [seq map].
  fold (pos_part a). rewrite (proj2 (Rltb_iff 0 b) Pb), (proj2 (Rleb_false b 0) Pb).
  set (v := if Rleb (pos_part a) 0 then 1 else pos_part a).
  assert (Pv : 0 < v). { unfold v. destruct (Rleb (pos_part a) 0) eqn:E; [lra|]. apply Rleb_false in E. exact E. }
  set (q := pos_part a) in *. clearbody v q. cbn [neg_data w_row x_y x_w map map2].
  assert (IV : 0 < 1 / v) by (apply Rdiv_lt_0_compat; lra). assert (IB : 0 < 1 / b) by (apply Rdiv_lt_0_compat; lra).
  unfold locpoisson_bin. cbn [bin_total map2 sumR Nat.eqb].
  f_equal; [|f_equal; [|f_equal]].
  - match goal with |- context [Rltb 0 ?x] => replace x with (1 / v) by ring end. rewrite (proj2 (Rltb_iff _ _) IV).
    match goal with |- context [Rltb 0 ?x] => replace x with 1 by (field; lra) end. rewrite (proj2 (Rltb_iff 0 1)) by lra.
    rewrite (proj2 (Reqb_false_iff 1 0)) by lra. do 2 f_equal. field. lra.
  - match goal with |- context [Rltb 0 ?x] => replace x with (1 / b) by ring end. rewrite (proj2 (Rltb_iff _ _) IB).
    match goal with |- context [Rltb 0 ?x] => replace x with 1 by (field; lra) end. rewrite (proj2 (Rltb_iff 0 1)) by lra.
    rewrite (proj2 (Reqb_false_iff 1 0)) by lra. do 2 f_equal. field. lra.
  - match goal with |- context [Rltb 0 ?x] => replace x with 0 by ring end. rewrite (proj2 (Rltb_false 0 0)) by lra.
    match goal with |- context [Rltb 0 ?x] => replace x with 0 by field end. rewrite (proj2 (Rltb_false 0 0)) by lra.
    rewrite (proj2 (Reqb_false_iff 1 0)) by lra. do 2 f_equal. field.
Qed.

Lemma neg_factors s it a b : s_zero s = false -> 0 < b -> snd (nf 0%nat f s it (preds2 a b)) = [- ((1 + pos_part a) / 2); (1 - b) / 2; 0].
Proof.
  intros Z Pb. unfold new_factors. cbn [snd]. cbv zeta. rewrite Z. unfold group_estimates. cbn [nth_error estimates p_factors]. rewrite neg_lex, neg_finite.
  rewrite (neg_estimates a b Pb). cbn [kind_calibration map estimate_value seq app firstn nth]. unfold group_smoother. cbn [nth_error]. change (f_mnl f) with false. cbv iota.
  unfold ex_rate.
  change (g_smoother plain_group) with bin_values. unfold bin_values. cbn [nth_error]. f_equal; [ring|f_equal; [ring|f_equal; ring]].
Qed.

Definition neg_state (k c : nat) (dv : bool) (a b l : R) (st : state) : Prop :=
  t_preds st = preds2 a b /\ (exists s, t_feats st = [s] /\ s_zero s = false) /\
  t_iter st = k /\ t_diverging st = c /\ t_isdiv st = dv /\ t_loss st = l.

Lemma neg_pass st k c dv a b l a' b' : neg_state k c dv a b l st -> 0 < b -> a' = next_low a -> b' = next_high b ->
  exists s s', t_feats st = [s] /\ s_zero s' = false /\ s_factors s' = [a' - a; b' - b; 0] /\ s_old s' = s_factors s /\ s_agg s' <> None /\
  features_pass cfg calc smooth (kind_calibration kd [f] w) ex_rate loss 0 [f] (t_feats st) (t_iter st) (t_preds st) (t_isdiv st) (t_diverging st) init = Ok ([s'], preds2 a' b').
Proof.
  intros (P & (s & Es & Z) & I & _) Pb -> ->. rewrite Es, P. cbn [features_pass]. rewrite (not_skipped plain_group cfg D (or_introl Hh)).
  unfold feature_iteration. rewrite Hagg. cbv zeta. pose proof (neg_factors s (t_iter st) a b Z Pb) as FS.
  destruct (nf 0%nat f s (t_iter st) (preds2 a b)) as [un fs] eqn:EQ. cbn [snd] in FS. subst fs.
  unfold visit_factors, limit_factors. rewrite Hlog. cbn [andb s_factors].
  match goal with |- exists s0 s1, _ /\ _ /\ _ /\ _ /\ _ /\ Ok ([?x], _) = _ => exists s, x end.
  cbn [s_zero s_factors s_old s_agg].
  split; [reflexivity|]. split; [exact Z|]. split; [f_equal; [field|f_equal; field]|]. split; [reflexivity|]. split; [discriminate|].
  rewrite neg_lex. cbn [f_ext bind_group add_preds p_factors p_exponents gather map nth vadd map2]. do 2 f_equal. apply preds2_eq; field.
Qed.

(** A pass that does not diverge. *)
Lemma neg_next st k c dv a b l a' b' : neg_state k c dv a b l st -> 0 < b -> a' = next_low a -> b' = next_high b ->
  loss2 a' b' <= init * 2 -> exists st', step st = Ok st' /\ neg_state (S k) c false a' b' (loss2 a' b') st' /\
    t_losschange st' = loss_change l (loss2 a' b') /\
    (exists s s', t_feats st = [s] /\ t_feats st' = [s'] /\ s_factors s' = [a' - a; b' - b; 0] /\ s_old s' = s_factors s /\ t_delta st' = factors_deviation [s']).
Proof.
  intros G Pb Ea Eb LO. destruct (neg_pass st k c dv a b l a' b' G Pb Ea Eb) as (s & s' & Es & Z & SF & SO & SA & FP).
  destruct G as (P & _ & I & C & V & LS). unfold iteration. rewrite FP. cbn [p_factors]. rewrite (neg_loss a' b').
  assert (NDV : is_diverged init (loss2 a' b') = false) by (apply Rltb_false; exact LO). rewrite NDV. cbn [andb].
  eexists. split; [reflexivity|]. unfold neg_state. cbn [t_preds t_feats t_iter t_diverging t_isdiv t_loss t_losschange t_delta]. rewrite I, C, LS.
  split; [|split; [reflexivity|]].
  - split; [reflexivity|]. split; [exists s'; split; [reflexivity|exact Z]|]. repeat split; reflexivity.
  - exists s, s'. repeat split; assumption.
Qed.

(** A pass that diverges, for the fifth time or not. *)
Lemma neg_back st k c dv a b l a' b' : neg_state k c dv a b l st -> 0 < b -> a' = next_low a -> b' = next_high b ->
  init * 2 < loss2 a' b' -> (c < 4)%nat -> exists st', step st = Ok st' /\ neg_state (S k) (S c) true a b (loss2 a' b') st'.
Proof.
  intros G Pb Ea Eb LO C4. destruct (neg_pass st k c dv a b l a' b' G Pb Ea Eb) as (s & s' & Es & Z & SF & SO & SA & FP).
  destruct G as (P & _ & I & C & V & LS). unfold iteration. rewrite FP. cbn [p_factors]. rewrite (neg_loss a' b').
  assert (DV : is_diverged init (loss2 a' b') = true) by (apply Rltb_iff; exact LO). rewrite DV, C. rewrite (proj2 (Nat.leb_gt 5 (S c))) by lia. cbn [andb].
  cbn [remove_preds]. destruct (s_agg s') as [ag|]; [|contradiction]. rewrite SF, neg_lex.
  eexists. split; [reflexivity|]. unfold neg_state. cbn [t_preds t_feats t_iter t_diverging t_isdiv t_loss]. rewrite I.
  split; [cbn [f_ext bind_group sub_preds p_factors p_exponents gather map nth vsub map2]; apply preds2_eq; ring|]. split; [eexists; split; [reflexivity|exact Z]|]. repeat split; reflexivity.
Qed.
Lemma neg_raise st k dv a b l a' b' : neg_state k 4 dv a b l st -> 0 < b -> a' = next_low a -> b' = next_high b ->
  init * 2 < loss2 a' b' -> step st = Raise ConvergenceError.
Proof.
  intros G Pb Ea Eb LO. destruct (neg_pass st k 4 dv a b l a' b' G Pb Ea Eb) as (s & s' & Es & Z & SF & SO & SA & FP).
  destruct G as (P & _ & I & C & V & LS). unfold iteration. rewrite FP. cbn [p_factors]. rewrite (neg_loss a' b').
  assert (DV : is_diverged init (loss2 a' b') = true) by (apply Rltb_iff; exact LO). rewrite DV, C. reflexivity.
Qed.

Lemma neg_continues k st : t_iter st = k -> (k < 7)%nat -> 1 / 1000 < t_delta st -> 1 / 1000 < Rabs (t_losschange st) -> continues cfg st = true.
Proof.
  intros I K A B. unfold continues, check_stop, stop_iterations, stop_factor_change, stop_loss_change.
  rewrite (proj2 (Nat.leb_gt _ _)) by lia. rewrite (proj2 (Rleb_false _ _)) by lra. rewrite (proj2 (Rleb_false _ _)) by lra. reflexivity.
Qed.
Lemma neg_continues_div st : t_isdiv st = true -> continues cfg st = true.
Proof. intro E. unfold continues. rewrite E. apply orb_true_r. Qed.

Lemma dev3 s' u v x p q r : s_factors s' = [u; v; x] -> s_old s' = [p; q; r] -> factors_deviation [s'] = (Rabs (u - p) + Rabs (v - q) + Rabs (x - r)) / 3.
Proof. intros E1 E2. unfold factors_deviation, mean. cbn [map]. rewrite E1, E2. cbn. field. Qed.

Lemma next_neg a : a <= 0 -> next_low a = a - 1 / 2.
Proof. intro N. unfold pos_part. rewrite (proj2 (Rltb_false 0 a)) by exact N. field. Qed.

(** Six passes, after which the next one diverges. *)
Lemma neg_forward fuel st k c a b l a' b' u v p q r : neg_state k c false a b l st -> 0 < b -> a' = next_low a -> b' = next_high b ->
  loss2 a' b' <= init * 2 -> (k < 7)%nat -> 1 / 1000 < t_delta st -> 1 / 1000 < Rabs (t_losschange st) ->
  u = a' - a -> v = b' - b -> (exists s, t_feats st = [s] /\ s_factors s = [p; q; r]) ->
  exists st', loop cfg [f] calc smooth (kind_calibration kd [f] w) ex_rate loss (S fuel) init st = loop cfg [f] calc smooth (kind_calibration kd [f] w) ex_rate loss fuel init st' /\
    neg_state (S k) c false a' b' (loss2 a' b') st' /\ t_losschange st' = loss_change l (loss2 a' b') /\
    t_delta st' = (Rabs (u - p) + Rabs (v - q) + Rabs (0 - r)) / 3 /\ (exists s, t_feats st' = [s] /\ s_factors s = [u; v; 0]).
Proof.
  intros G Pb Ea Eb LO K HD HL Eu Ev (s0 & Es0 & SF0).
  destruct (neg_next st k c false a b l a' b' G Pb Ea Eb LO) as (st' & E & G' & LC & s & s' & Es & Es' & SF & SO & DL).
  exists st'. cbn [loop]. rewrite (neg_continues k st (proj1 (proj2 (proj2 G))) K HD HL), E. split; [reflexivity|]. split; [exact G'|]. split; [exact LC|].
  rewrite Es0 in Es. injection Es as <-. rewrite SF0 in SO. subst u v. split; [rewrite DL; exact (dev3 s' _ _ _ _ _ _ SF SO)|]. exists s'. split; assumption.
Qed.

Lemma neg_first : neg_state 0 0 false (1 / 1000) (1 / 1000) init (init_state [f] loss (preds2 (1 / 1000) (1 / 1000))).
Proof.
  split; [reflexivity|]. split; [eexists; split; reflexivity|]. split; [reflexivity|]. split; [reflexivity|]. split; [reflexivity|].
  cbn [init_state t_loss p_factors]. apply neg_loss.
Qed.

Ltac absolute := unfold Rabs; repeat match goal with |- context [Rcase_abs ?x] => destruct (Rcase_abs x) end; lra.
Ltac change_of := unfold loss_change, loss2; rewrite (proj2 (Reqb_false_iff _ 0)) by lra; absolute.

Lemma big_change : 1 / 1000 < Rabs (IZR (10 ^ 20)).
Proof.
  assert (1 <= IZR (10 ^ 20)) by (apply IZR_le; apply Z.leb_le; reflexivity).
  rewrite Rabs_pos_eq by lra. lra.
Qed.

Lemma neg_run fuel : (11 <= fuel)%nat ->
  loop cfg [f] calc smooth (kind_calibration kd [f] w) ex_rate loss fuel init (init_state [f] loss (preds2 (1 / 1000) (1 / 1000))) = Some (Raise ConvergenceError).
Proof.
  intro F. do 11 (destruct fuel as [|fuel]; [lia|]). clear F.
  assert (P0 : next_low (1 / 1000) = 1001 / 2000 - 1) by (unfold pos_part; rewrite (proj2 (Rltb_iff 0 (1 / 1000))) by lra; lra).
  destruct (neg_forward (S (S (S (S (S (S (S (S (S (S fuel)))))))))) _ 0 0 (1 / 1000) (1 / 1000) _ (1001 / 2000 - 1) (1001 / 2000) (- (1001 / 2000)) (999 / 2000) 0 0 0 neg_first) as (s1 & -> & G1 & C1 & D1 & F1);
    [lra|lra|lra|unfold loss2; lra|lia|cbn; lra|exact big_change|lra|lra|eexists; split; reflexivity|].
  destruct (neg_forward (S (S (S (S (S (S (S (S (S fuel))))))))) s1 1 0 _ _ _ (1001 / 2000 - 3 / 2) (3001 / 4000) (- (1 / 2)) (999 / 4000) (- (1001 / 2000)) (999 / 2000) 0 G1) as (s2 & -> & G2 & C2 & D2 & F2);
    [lra|rewrite next_neg; lra|lra|unfold loss2; lra|lia|rewrite D1; absolute|rewrite C1; change_of|lra|lra|exact F1|].
  destruct (neg_forward (S (S (S (S (S (S (S (S fuel)))))))) s2 2 0 _ _ _ (1001 / 2000 - 2) (7001 / 8000) (- (1 / 2)) (999 / 8000) (- (1 / 2)) (999 / 4000) 0 G2) as (s3 & -> & G3 & C3 & D3 & F3);
    [lra|rewrite next_neg; lra|lra|unfold loss2; lra|lia|rewrite D2; absolute|rewrite C2; change_of|lra|lra|exact F2|].
  destruct (neg_forward (S (S (S (S (S (S (S fuel))))))) s3 3 0 _ _ _ (1001 / 2000 - 5 / 2) (15001 / 16000) (- (1 / 2)) (999 / 16000) (- (1 / 2)) (999 / 8000) 0 G3) as (s4 & -> & G4 & C4 & D4 & F4);
    [lra|rewrite next_neg; lra|lra|unfold loss2; lra|lia|rewrite D3; absolute|rewrite C3; change_of|lra|lra|exact F3|].
  destruct (neg_forward (S (S (S (S (S (S fuel)))))) s4 4 0 _ _ _ (1001 / 2000 - 3) (31001 / 32000) (- (1 / 2)) (999 / 32000) (- (1 / 2)) (999 / 16000) 0 G4) as (s5 & -> & G5 & C5 & D5 & F5);
    [lra|rewrite next_neg; lra|lra|unfold loss2; lra|lia|rewrite D4; absolute|rewrite C4; change_of|lra|lra|exact F4|].
  destruct (neg_forward (S (S (S (S (S fuel))))) s5 5 0 _ _ _ (1001 / 2000 - 7 / 2) (63001 / 64000) (- (1 / 2)) (999 / 64000) (- (1 / 2)) (999 / 32000) 0 G5) as (s6 & -> & G6 & C6 & D6 & F6);
    [lra|rewrite next_neg; lra|lra|unfold loss2; lra|lia|rewrite D5; absolute|rewrite C5; change_of|lra|lra|exact F5|].
  assert (X1 : 0 < 63001 / 64000) by lra. assert (X2 : 1001 / 2000 - 4 = next_low (1001 / 2000 - 7 / 2)) by (rewrite next_neg; lra).
  assert (X3 : 127001 / 128000 = next_high (63001 / 64000)) by lra. assert (X4 : init * 2 < loss2 (1001 / 2000 - 4) (127001 / 128000)) by (unfold loss2; lra).
  cbn [loop]. rewrite (neg_continues 6 s6 (proj1 (proj2 (proj2 G6))) ltac:(lia)); [|rewrite D6; absolute|rewrite C6; change_of].
  destruct (neg_back s6 6 0 _ _ _ _ _ _ G6 X1 X2 X3 X4 ltac:(lia)) as (s7 & -> & G7). rewrite (neg_continues_div s7 (proj1 (proj2 (proj2 (proj2 (proj2 G7)))))).
  destruct (neg_back s7 7 1 _ _ _ _ _ _ G7 X1 X2 X3 X4 ltac:(lia)) as (s8 & -> & G8). rewrite (neg_continues_div s8 (proj1 (proj2 (proj2 (proj2 (proj2 G8)))))).
  destruct (neg_back s8 8 2 _ _ _ _ _ _ G8 X1 X2 X3 X4 ltac:(lia)) as (s9 & -> & G9). rewrite (neg_continues_div s9 (proj1 (proj2 (proj2 (proj2 (proj2 G9)))))).
  destruct (neg_back s9 9 3 _ _ _ _ _ _ G9 X1 X2 X3 X4 ltac:(lia)) as (s10 & -> & G10). rewrite (neg_continues_div s10 (proj1 (proj2 (proj2 (proj2 (proj2 G10)))))).
  rewrite (neg_raise s10 10 _ _ _ _ _ _ G10 X1 X2 X3 X4). reflexivity.
Qed.

Lemma neg_scale : kind_scale kd y w = Some (1 / 1000).
Proof.
  unfold kind_scale, global_scale, weighted_mean. cbn [map neg_data w_row x_y x_w sumR map2 kind_link].
  rewrite (proj2 (Reqb_false_iff _ _)) by lra. cbn. f_equal. field.
Qed.
Lemma neg_fit fuel : (11 <= fuel)%nat -> whole_fit gm bppf erfinv bad kd false [plain_group] cfg ex_rate fuel D = Failed ConvergenceError.
Proof.
  intro F. unfold whole_fit. rewrite neg_scale. cbv zeta. unfold train. cbv zeta. unfold fit_main. cbn [linked_column prior_predictions bind_groups].
  pose proof (neg_run fuel F) as E. pose proof (neg_loss (1 / 1000) (1 / 1000)) as LV.
  change (repeat (1 / 1000) (length D)) with [1 / 1000; 1 / 1000]. change (zeros (length D)) with (zeros 2).
  cbn [p_factors]. rewrite LV. cbv beta in E |- *. rewrite E. reflexivity.
Qed.
End Negative.

Lemma neg_binned : binned_rows [plain_group] neg_data.
Proof.
  destruct lc_binned as (A & B & C). split; [|split; [exact B|]].
  - intros r i g I G. destruct i as [|i]; [|destruct i; discriminate]. injection G as <-. repeat (destruct I as [<-|I]; [reflexivity|]). destruct I.
  - intros r i x I X. destruct I as [<-|[<-|[]]].
    + exact (C (w_row 0 0 1) i x (or_introl eq_refl) X).
    + exact (C (w_row 1 10 2) i x (or_intror (or_intror (or_introl eq_refl))) X).
Qed.

Theorem locpoisson_negative_refuted : forall gm bppf erfinv bad, exists g D,
  binned_rows [g] D /\ Forall (fun s => 0 < x_w s) D /\ (exists s s', In s D /\ In s' D /\ x_y s <> x_y s') /\ g_smoother g = bin_values /\ 0 <= mean_target D /\
  forall cfg fuel, c_log cfg = false -> c_aggregate cfg = true -> c_hier cfg = false ->
    c_minfactor cfg <= 1 / 1000 -> c_minloss cfg <= 1 / 1000 -> (7 <= c_maxiter cfg)%nat -> (11 <= fuel)%nat ->
    whole_fit gm bppf erfinv bad LocPoissonRegressor false [g] cfg (fun _ _ => 1) fuel D = Failed ConvergenceError.
Proof.
  intros gm bppf erfinv bad. exists plain_group, neg_data. split; [exact neg_binned|]. split; [repeat constructor; cbn; lra|]. split; [|split; [reflexivity|split]].
  - exists (w_row 0 (-1) 1), (w_row 1 1 1). split; [left; reflexivity|]. split; [right; left; reflexivity|]. cbn. lra.
  - unfold mean_target, overall. cbn. lra.
  - intros cfg fuel A B C D E F G. exact (neg_fit gm bppf erfinv bad cfg A B C D E F fuel G).
Qed.
