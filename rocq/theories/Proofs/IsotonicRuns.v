(** Training with monotonic columns: what is guaranteed, and what is not. *)
From Coq Require Import ZArith NArith QArith Qreals List Bool Reals Lia Lra.
From Verif.Model Require Import Num LexBins Flags Train Predict Link Estimators SmootherChoice MetaSmoothers Isotonic.
From Verif.Spec Require Import LexSpec MetaSpec TrainSpec PredictSpec IsotonicSpec.
From Verif.Proofs Require Import LexFacts TrainFacts TrainExamples TrainHistory TrainBounds LinkFacts MetaFacts CutFacts ImportanceFacts PoolFacts MonotoneTrain IsotonicFacts.
Import ListNotations.
Local Open Scope R_scope.

Lemma follows_nth b (v : list R) i j : follows b v -> (i <= j < length v)%nat ->
  if b then nth i v 0 <= nth j v 0 else nth j v 0 <= nth i v 0.
Proof. intros H L. destruct b; apply H; exact L. Qed.

Section Run.
Context {K : Type}.
Variable cfg : settings.
Variable features : list feature.
Variable calc : nat -> nat -> preds -> list R.
Variable smooth : nat -> nat -> preds -> list R -> nat -> option R.
Variable calib : nat -> list R -> list R.
Variable rate : nat -> nat -> R.
Variable loss : preds -> R.
Variable prior : preds.
Variable N m : nat.
Variable f : feature.
Variables (c : choice_class) (ut un : bool) (explicit : list K -> option smoother) (name : K) (p : BinNums.N)
  (other : smoother -> smoothing_alg) (s : smoother) (weights : list Q) (unc : nat -> preds -> list R).
Hypothesis Hw : well_shaped N features prior.
Hypothesis Ho : one_per_bin features calc calib.
Hypothesis Hm : nth_error features m = Some f.
Hypothesis Hc : c <> ChoiceNone.
Hypothesis He : explicit [name] = None.
Hypothesis Hp : monotonic p.
Hypothesis Hs : choice_fct c ut un explicit [name] [p] = Some s.
Hypothesis Hsm : forall it q values k, smooth m it q values k = fitted_smoother (smoother_alg other s) (f_finite f) weights unc it q values k.
Hypothesis Hcal : moves_all (f_finite f) (calib m).
Hypothesis Hr : forall it, 0 <= rate it m.

Lemma new_follows b : (monotonic_increasing p /\ b = true) \/ (monotonic_decreasing p /\ b = false) ->
  forall st it q, follows_to b (f_finite f) (snd (new_factors calc smooth calib rate m f st it q)).
Proof.
  intros Hb st it q. cbn [new_factors snd]. set (nb := if f_mnl f then 0 else _).
  set (g := fun k : nat => if s_zero st then rate it m * 0 else _). 
  destruct (Hcal (map g (seq 0 (f_finite f)) ++ [nb])) as (sh & Sh); [rewrite app_length, map_length, seq_length; cbn; lia|].
  assert (G : forall i j, (i <= j < f_finite f)%nat -> if b then g i <= g j else g j <= g i).
  { destruct (flagged_smoother c ut un explicit name p other s Hc He Hp Hs) as [_ FB].
    destruct (FB (f_finite f) weights (unc it q) (firstn (f_finite f) (calc m it q))) as (b' & v & [O1 O2] & (Lv & Fv & _) & E).
    { rewrite firstn_length. destruct Ho as [H1 _]. rewrite (H1 m f it q Hm). lia. }
    assert (b' = b) by (destruct Hb as [[M ->]|[M ->]]; auto). subst b'.
    assert (Lf : length v = f_finite f).
    { rewrite Lv, firstn_length. destruct Ho as [H1 _]. rewrite (H1 m f it q Hm). lia. }
    assert (Gk : forall k, (k < f_finite f)%nat -> g k = if s_zero st then rate it m * 0 else rate it m * nth k v 0).
    { intros k Hk. unfold g. destruct (s_zero st); [reflexivity|]. rewrite Hsm. unfold fitted_smoother. rewrite E.
      rewrite (nth_indep _ None (Some 0)) by (rewrite map_length; lia). rewrite (map_nth Some). reflexivity. }
    intros i j Hij. rewrite !Gk by lia. pose proof (follows_nth b v i j Fv ltac:(lia)) as Q. pose proof (Hr it).
    destruct (s_zero st), b; nra. }
  intros i j Hij. rewrite !Sh by lia. rewrite !app_nth1 by (rewrite map_length, seq_length; lia).
  rewrite !(nth_indep (map g _) 0 (g 0%nat)) by (rewrite map_length, seq_length; lia).
  rewrite !map_nth, !seq_nth by lia. specialize (G i j Hij). cbn [Nat.add]. destruct b; lra.
Qed.

Lemma monotone_training fuel st : fit_main cfg features calc smooth calib rate loss fuel prior = Some (Ok st) ->
  (c_log cfg && c_aggregate cfg = false \/ t_diverging st = 0%nat) ->
  exists fs a, nth_error (t_feats st) m = Some fs /\ s_agg fs = Some a /\ length a = S (f_finite f) /\
    (monotonic_increasing p -> follows_to true (f_finite f) a) /\
    (monotonic_decreasing p -> follows_to false (f_finite f) a).
Proof.
  intros E D. destruct (fit_reached _ _ _ _ _ _ _ _ _ _ E) as (H & _ & F).
  pose proof (reached_length cfg features calc smooth calib rate loss prior st H) as L.
  destruct (nth_error (t_feats st) m) as [fs|] eqn:Ef.
  2:{ exfalso. apply nth_error_None in Ef. assert (m < length features)%nat by (apply nth_error_Some; congruence). lia. }
  pose proof (reached_inv cfg features calc smooth calib rate loss prior N Hw Ho st H) as [V1 V2].
  pose proof (Forall2_nth_error _ _ _ m f fs V1 Hm Ef) as (A1 & A2 & A3 & A4).
  assert (Ea : exists a, s_agg fs = Some a).
  { unfold finish in F. destruct (forallb _ _) eqn:Fb; [|discriminate]. rewrite forallb_forall in Fb.
    specialize (Fb fs (nth_error_In _ _ Ef)). destruct (s_agg fs); [eauto|discriminate]. }
  destruct Ea as (a & Ea). exists fs, a. split; [reflexivity|]. split; [exact Ea|]. split; [now apply A3|].
  assert (G : forall b, (monotonic_increasing p /\ b = true) \/ (monotonic_decreasing p /\ b = false) -> follows_to b (f_finite f) a).
  { intros b Hb. pose proof (reached_follows cfg features calc smooth calib rate loss prior N Hw Ho b (f_finite f) m f Hm ltac:(lia)
      (new_follows b Hb) st H D fs Ef) as R. unfold learned in R. rewrite Ea in R. exact R. }
  split; intro M; apply G; auto.
Qed.
End Run.

(** ** Pooling of three bins of the same weight *)
Lemma pool_three W a b c : 0 < W -> a < b -> c <= b -> a < (b + c) / 2 ->
  pool [W; W; W] [a; b; c] = [a; (b + c) / 2; (b + c) / 2].
Proof.
  intros HW H1 H2 H3. unfold pool. cbn [combine fold_left fst snd push].
  rewrite (proj2 (Rleb_false b a)) by lra. cbn [push]. rewrite (proj2 (Rleb_iff c b)) by lra. cbn [push].
  replace ((W * b + W * c) / (W + W)) with ((b + c) / 2) by (field; lra).
  rewrite (proj2 (Rleb_false ((b + c) / 2) a)) by lra. reflexivity.
Qed.
Lemma pool_two W a b : 0 < W -> b <= a -> pool [W; W] [a; b] = [(a + b) / 2; (a + b) / 2].
Proof.
  intros HW H. unfold pool. cbn [combine fold_left fst snd push].
  rewrite (proj2 (Rleb_iff b a)) by lra. cbn [push]. replace ((W * a + W * b) / (W + W)) with ((a + b) / 2) by (field; lra). reflexivity.
Qed.

(** ** Without a direction the smoother may change it between iterations *)
Lemma isotonic_bins d n w u y : length y = n ->
  let X := smoother_rows n w u in
  predict (regression_type_smoother 1 Interpolating (isotonic d))
    (fit (regression_type_smoother 1 Interpolating (isotonic d)) X y) (map bin_row (seq 0 n)) =
  map Some (isotonic_values (direction_bool d X y) (inverse_variances X) y).
Proof.
  intros L X. assert (LX : length X = length y) by (unfold X; now rewrite smoother_rows_length).
  pose proof (isotonic_fit_best d X y LX) as (LB & _).
  apply cut_same; [intros st rows; reflexivity|congruence|].
  cbn [predict fit isotonic]. apply isotonic_at_rows; [apply smoother_rows_sorted|exact (eq_trans LB (eq_sym LX))|apply bins_rows].
Qed.

Definition auto_feature : feature :=
  {| f_dim := 1; f_rows := [[Fin 0%Q]; [Fin 1%Q]; [Fin 2%Q]]; f_hier := false; f_mnl := false; f_ext := false |}.
Definition auto_y : list R := [0; 6; 3].
Definition auto_w : list R := [1; 1; 1].
Definition auto_params (p : preds) : list (option (R * R)) := location_parameters [0; 1; 2]%nat 4 auto_y auto_w (p_factors p).
Definition part (g : R * R -> R) (o : option (R * R)) : R := match o with Some x => g x | None => 0 end.
Definition auto_calc (_ _ : nat) (p : preds) : list R := map (part fst) (auto_params p).
Definition auto_unc (_ : nat) (p : preds) : list R := map (part snd) (auto_params p).
Definition auto_other (_ : smoother) : smoothing_alg := isotonic AutoDirection.
Definition auto_smoother : smoother := Cut (Isotonic AutoDirection) Interpolating.
Definition auto_smooth (_ : nat) : nat -> preds -> list R -> nat -> option R :=
  fitted_smoother (smoother_alg auto_other auto_smoother) 3 [1; 1; 1]%Q auto_unc.
Definition auto_loss (p : preds) : R :=
  sumR (map2 (fun w r => w * (r * r)) auto_w (map2 Rminus (p_factors p) auto_y)) / sumR auto_w.
Definition auto_prior : preds := {| p_factors := [3; 3; 3]; p_exponents := [0; 0; 0] |}.
Definition auto_calib := location_calibration [auto_feature] auto_w.
Notation auto_cfg := (ex_cfg true false false 0 2).

Definition auto_u : R := sqrt (103 / 300 / (103 / 300) ^ 2).
Ltac lcomp := lazy -[Rltb Rleb Reqb clip ln Rplus Rminus Ropp Rmult Rdiv Rinv IZR Rabs sqrt pow INR].
Lemma auto_prior_variance : variance_prior auto_y auto_w = Some 6.
Proof. unfold auto_y, auto_w. lcomp. repeat (real_step; lcomp). f_equal. field. Qed.
Lemma auto_variances : precalc_variance_y [0; 1; 2]%nat 4 auto_y auto_w = [Some 3; Some 3; Some 3; Some 6].
Proof.
  unfold precalc_variance_y. rewrite auto_prior_variance. unfold auto_y, auto_w. lcomp. repeat (real_step; lcomp).
  repeat (f_equal; try field).
Qed.
Lemma some_pair (a b c d : R) : a = c -> b = d -> Some (a, b) = Some (c, d).
Proof. congruence. Qed.
Lemma sqrt_same (a b : R) : a = b -> sqrt a = sqrt b.
Proof. congruence. Qed.
Lemma auto_estimates a b c e : auto_params {| p_factors := [a; b; c]; p_exponents := e |} =
  [Some ((0 - a) * (100 / 103), auto_u); Some ((6 - b) * (100 / 103), auto_u); Some ((3 - c) * (100 / 103), auto_u);
   Some (0, sqrt (1 / 100 / (1 / 100) ^ 2))].
Proof.
  unfold auto_params, location_parameters. rewrite auto_variances. unfold auto_y, auto_w, auto_u. lcomp. repeat (real_step; lcomp).
  repeat apply (f_equal2 (@cons (option (R * R)))); try reflexivity; apply some_pair; try apply sqrt_same; field.
Qed.

(** The direction found for three bins. *)
Lemma three_abscissas w u : map Q2R (map abscissa (smoother_rows 3 w u)) = [0; 1; 2].
Proof. cbn. unfold Q2R. cbn. repeat (f_equal; try lra). Qed.
Lemma three_up a b c : a < c < b -> check_increasing [0; 1; 2] [a; b; c] = true.
Proof. intro H. lcomp. repeat (real_step; lcomp). cbn [INR]. rewrite (proj2 (Rleb_iff _ _)); [reflexivity|lra]. Qed.
Lemma three_down a b c : c < a < b -> check_increasing [0; 1; 2] [a; b; c] = false.
Proof. intro H. lcomp. repeat (real_step; lcomp). cbn [INR]. rewrite (proj2 (Rleb_false _ _)); [reflexivity|lra]. Qed.

Lemma auto_values s0 s1 s2 e a b c :
  let X := smoother_rows 3 [1; 1; 1]%Q (auto_unc 0 {| p_factors := [s0; s1; s2]; p_exponents := e |}) in
  a < b -> c < b ->
  (a < c -> a < (b + c) / 2 -> isotonic_values (direction_bool AutoDirection X [a; b; c]) (inverse_variances X) [a; b; c] =
    [a; (b + c) / 2; (b + c) / 2]) /\
  (c < a -> c < (b + a) / 2 -> isotonic_values (direction_bool AutoDirection X [a; b; c]) (inverse_variances X) [a; b; c] =
    [(b + a) / 2; (b + a) / 2; c]).
Proof.
  intros X H1 H2. unfold direction_bool. cbn [direction_of].
  assert (W : inverse_variances X = repeat (isotonic_weight auto_u) 3).
  { unfold X, auto_unc. rewrite auto_estimates. reflexivity. }
  rewrite W. unfold X. rewrite three_abscissas. pose proof (weight_pos auto_u). split; intros H3 H4.
  - rewrite three_up by lra. unfold isotonic_values. cbn [repeat]. apply pool_three; lra.
  - rewrite three_down by lra. unfold isotonic_values. cbn [repeat rev app]. rewrite pool_three by lra. reflexivity.
Qed.
Lemma auto_smooth_eq i it s0 s1 s2 e a b c v : 
  isotonic_values (direction_bool AutoDirection (smoother_rows 3 [1; 1; 1]%Q (auto_unc 0 {| p_factors := [s0; s1; s2]; p_exponents := e |})) [a; b; c])
    (inverse_variances (smoother_rows 3 [1; 1; 1]%Q (auto_unc 0 {| p_factors := [s0; s1; s2]; p_exponents := e |}))) [a; b; c] = v ->
  forall k, auto_smooth i it {| p_factors := [s0; s1; s2]; p_exponents := e |} [a; b; c] k = nth k (map Some v) None.
Proof.
  intros E k. unfold auto_smooth, fitted_smoother, auto_smoother. cbn [smoother_alg].
  change (auto_unc it) with (auto_unc 0). rewrite isotonic_bins by reflexivity. cbv zeta. now rewrite E.
Qed.

Lemma mean_nonneg l : (forall x, In x l -> 0 <= x) -> 0 <= mean l.
Proof.
  intro H. unfold mean. pose proof (sumR_nonneg' l H). destruct l as [|x l]; [cbn; lra|].
  apply Rmult_le_pos; [assumption|]. left. apply Rinv_0_lt_compat. apply lt_0_INR. cbn. lia.
Qed.
Lemma deviation_nonneg sl : 0 <= factors_deviation sl.
Proof.
  unfold factors_deviation. apply mean_nonneg. intros x I. apply in_map_iff in I. destruct I as (s & <- & _).
  apply mean_nonneg. intros y J. apply in_map_iff in J. destruct J as (v & <- & _). apply Rabs_pos.
Qed.

(** A run for given estimates and fits. *)
Section AutoRun.
Variable calc : nat -> nat -> preds -> list R.
Variable smooth : nat -> nat -> preds -> list R -> nat -> option R.
Definition auto_p1 : preds := {| p_factors := [9 / 103; 459 / 103; 459 / 103]; p_exponents := [0; 0; 0] |}.
Definition auto_p2 : preds := {| p_factors := [8427 / 10609; 54777 / 10609; 32277 / 10609]; p_exponents := [0; 0; 0] |}.
Hypothesis C0 : calc 0%nat 0%nat auto_prior = [-300 / 103; 300 / 103; 0; 0].
Hypothesis C1 : calc 0%nat 1%nat auto_p1 = [-900 / 10609; 15900 / 10609; -15000 / 10609; 0].
Hypothesis S0 : forall k, smooth 0%nat 0%nat auto_prior [-300 / 103; 300 / 103; 0] k =
  nth k [Some (-300 / 103); Some (150 / 103); Some (150 / 103)] None.
Hypothesis S1 : forall k, smooth 0%nat 1%nat auto_p1 [-900 / 10609; 15900 / 10609; -15000 / 10609] k =
  nth k [Some (7500 / 10609); Some (7500 / 10609); Some (-15000 / 10609)] None.
Notation auto_iter := (iteration auto_cfg [auto_feature] calc smooth auto_calib ex_rate auto_loss).

Lemma auto_calibrated a b c : a + b + c = 0 -> auto_calib 0%nat [a; b; c; 0] = [a; b; c; 0].
Proof.
  intro H. unfold auto_calib, location_calibration. cbn [nth_error auto_feature f_mnl].
  change (bincounts _ _ _) with [1 + (0 + (0 + 0)); 0 + (1 + (0 + 0)); 0 + (0 + (1 + 0)); 0 + (0 + (0 + 0))].
  unfold calibrate, centred. cbn [map map2 sumR].
  replace (a * (1 + (0 + (0 + 0))) + (b * (0 + (1 + (0 + 0))) + (c * (0 + (0 + (1 + 0))) + (0 * (0 + (0 + (0 + 0))) + 0)))) with (a + b + c) by ring.
  rewrite H. repeat (f_equal; try field).
Qed.
Lemma auto_new0 s : s_zero s = false -> new_factors calc smooth auto_calib ex_rate 0 auto_feature s 0 auto_prior =
  ([-300 / 103; 300 / 103; 0; 0], [-300 / 103; 150 / 103; 150 / 103; 0]).
Proof.
  intro Z. unfold new_factors. rewrite C0, Z. change (f_finite auto_feature) with 3%nat.
  cbn [firstn seq map app nth f_mnl auto_feature]. rewrite !S0. cbn [nth]. unfold ex_rate. f_equal.
  rewrite !Rmult_1_l, Rmult_0_l. apply auto_calibrated. lra.
Qed.
Lemma auto_new1 s : s_zero s = false -> new_factors calc smooth auto_calib ex_rate 0 auto_feature s 1 auto_p1 =
  ([-900 / 10609; 15900 / 10609; -15000 / 10609; 0], [7500 / 10609; 7500 / 10609; -15000 / 10609; 0]).
Proof.
  intro Z. unfold new_factors. rewrite C1, Z. change (f_finite auto_feature) with 3%nat.
  cbn [firstn seq map app nth f_mnl auto_feature]. rewrite !S1. cbn [nth]. unfold ex_rate. f_equal.
  rewrite !Rmult_1_l, Rmult_0_l. apply auto_calibrated. lra.
Qed.

Definition auto_f (fs old agg : list R) : fstate :=
  {| s_fitted := true; s_factors := fs; s_old := old; s_agg := Some agg; s_zero := false |}.
Lemma auto_iter0 : exists c d, 0 <= d /\ auto_iter (auto_loss auto_prior) (init_state [auto_feature] auto_loss auto_prior) =
  Ok {| t_preds := auto_p1;
        t_feats := [auto_f [-300 / 103; 150 / 103; 150 / 103; 0] [0; 0; 0; 0] [-300 / 103; 150 / 103; 150 / 103; 0]];
        t_iter := 1; t_diverging := 0; t_isdiv := false; t_loss := auto_loss auto_p1; t_losschange := c; t_delta := d |}.
Proof.
  do 2 eexists. apply and_comm. refine (conj _ _). unfold iteration, init_state. cbn [map t_feats t_iter t_preds t_isdiv t_diverging t_loss features_pass].
  change (skipped auto_cfg auto_feature 0) with false. cbn iota.
  unfold feature_iteration. cbn [c_aggregate ex_cfg]. rewrite auto_new0 by reflexivity.
  unfold visit_factors, limit_factors. cbn [c_log c_aggregate ex_cfg andb s_fitted init_fstate s_zero s_factors].
  match goal with |- context [add_preds ?e ?p ?g] => replace (add_preds e p g) with auto_p1 end.
  2:{ change (f_lex auto_feature) with [0; 1; 2]%nat. unfold auto_p1, auto_prior, gather, vadd. cbn. f_equal. repeat (f_equal; try field). }
  replace (is_diverged (auto_loss auto_prior) (auto_loss auto_p1)) with false.
  2:{ symmetry. unfold is_diverged. apply Rltb_false. unfold auto_loss, auto_prior, auto_p1, auto_w, auto_y. cbn. lra. }
  cbn [andb]. reflexivity. apply deviation_nonneg.
Qed.
Lemma auto_iter1 c d : exists c' d', auto_iter (auto_loss auto_prior)
   {| t_preds := auto_p1;
      t_feats := [auto_f [-300 / 103; 150 / 103; 150 / 103; 0] [0; 0; 0; 0] [-300 / 103; 150 / 103; 150 / 103; 0]];
      t_iter := 1; t_diverging := 0; t_isdiv := false; t_loss := auto_loss auto_p1; t_losschange := c; t_delta := d |} =
  Ok {| t_preds := auto_p2;
        t_feats := [auto_f [7500 / 10609; 7500 / 10609; -15000 / 10609; 0] [-300 / 103; 150 / 103; 150 / 103; 0]
                           [-23400 / 10609; 22950 / 10609; 450 / 10609; 0]];
        t_iter := 2; t_diverging := 0; t_isdiv := false; t_loss := auto_loss auto_p2; t_losschange := c'; t_delta := d' |}.
Proof.
  do 2 eexists. unfold iteration. cbn [t_feats t_iter t_preds t_isdiv t_diverging t_loss features_pass].
  change (skipped auto_cfg auto_feature 1) with false. cbn iota.
  unfold feature_iteration. cbn [c_aggregate ex_cfg]. rewrite auto_new1 by reflexivity.
  unfold visit_factors, limit_factors. cbn [c_log c_aggregate ex_cfg andb s_fitted auto_f s_zero s_factors s_agg].
  match goal with |- context [add_preds ?e ?p ?g] => replace (add_preds e p g) with auto_p2 end.
  2:{ change (f_lex auto_feature) with [0; 1; 2]%nat. unfold auto_p2, auto_p1, gather, vadd. cbn. f_equal. repeat (f_equal; try field). }
  match goal with |- context [vadd ?a ?b] => replace (vadd a b) with [-23400 / 10609; 22950 / 10609; 450 / 10609; 0] end.
  2:{ unfold vadd. cbn. repeat (f_equal; try field). }
  replace (is_diverged (auto_loss auto_prior) (auto_loss auto_p2)) with false.
  2:{ symmetry. unfold is_diverged. apply Rltb_false. unfold auto_loss, auto_prior, auto_p2, auto_w, auto_y. cbn. lra. }
  cbn [andb]. reflexivity.
Qed.

Lemma auto_continues st : (t_iter st < 2)%nat -> 0 <= t_delta st -> continues auto_cfg st = true.
Proof.
  intros Hi Hd. unfold continues, check_stop, stop_iterations, stop_factor_change, stop_loss_change.
  cbn [c_maxiter c_minfactor c_minloss ex_cfg]. rewrite (proj2 (Nat.leb_gt _ _) Hi), (proj2 (Rleb_false _ _)) by lra.
  rewrite (proj2 (Rleb_false _ _)); [reflexivity|]. pose proof (Rabs_pos (t_losschange st)). lra.
Qed.
Lemma auto_run : exists st s, fit_main auto_cfg [auto_feature] calc smooth auto_calib ex_rate auto_loss 2 auto_prior = Some (Ok st) /\
  t_diverging st = 0%nat /\ nth_error (t_feats st) 0 = Some s /\ s_agg s = Some [-23400 / 10609; 22950 / 10609; 450 / 10609; 0].
Proof.
  destruct auto_iter0 as (c & d & Hd & E0). destruct (auto_iter1 c d) as (c' & d' & E1). do 2 eexists. split.
  - unfold fit_main. erewrite loop_step; [|apply auto_continues; cbn; [lia|lra]|exact E0].
    erewrite loop_step; [|apply auto_continues; cbn; [lia|lra]|exact E1].
    rewrite loop_end by reflexivity. unfold finish. cbn [t_feats forallb s_agg auto_f andb t_loss t_diverging].
    rewrite andb_false_r. reflexivity.
  - cbn. auto.
Qed.
End AutoRun.

Lemma auto_changes : exists st s a,
  fit_main auto_cfg [auto_feature] auto_calc auto_smooth auto_calib ex_rate auto_loss 2 auto_prior = Some (Ok st) /\
  t_diverging st = 0%nat /\ nth_error (t_feats st) 0 = Some s /\ s_agg s = Some a /\
  ~ follows_to true 3 a /\ ~ follows_to false 3 a.
Proof.
  assert (C0 : auto_calc 0 0 auto_prior = [-300 / 103; 300 / 103; 0; 0]).
  { unfold auto_calc, auto_prior. rewrite auto_estimates. cbn [map part fst]. repeat (f_equal; try field). }
  assert (C1 : auto_calc 0 1 auto_p1 = [-900 / 10609; 15900 / 10609; -15000 / 10609; 0]).
  { unfold auto_calc, auto_p1. rewrite auto_estimates. cbn [map part fst]. repeat (f_equal; try field). }
  destruct (auto_run auto_calc auto_smooth C0 C1) as (st & s & E & D & F & A).
  - intro k. unfold auto_prior. erewrite auto_smooth_eq; [|refine (proj1 (auto_values _ _ _ _ _ _ _ _ _) _ _); lra]. cbn [map].
    replace ((300 / 103 + 0) / 2) with (150 / 103) by lra. reflexivity.
  - intro k. unfold auto_p1. erewrite auto_smooth_eq; [|refine (proj2 (auto_values _ _ _ _ _ _ _ _ _) _ _); lra]. cbn [map].
    replace ((15900 / 10609 + -900 / 10609) / 2) with (7500 / 10609) by lra. reflexivity.
  - exists st, s. eexists. split; [exact E|]. split; [exact D|]. split; [exact F|]. split; [exact A|]. split; intro H.
    + specialize (H 1%nat 2%nat ltac:(lia)). cbn in H. lra.
    + specialize (H 0%nat 1%nat ltac:(lia)). cbn in H. lra.
Qed.

(** ** A divergence with a logarithmic link *)
Definition div_feature : feature :=
  {| f_dim := 1; f_rows := [[Fin 0%Q]; [Fin 1%Q]]; f_hier := false; f_mnl := false; f_ext := false |}.
Definition div_calc (_ _ : nat) (_ : preds) : list R := [3; 2; 0].
Definition div_unc (_ : nat) (_ : preds) : list R := [1; 1; 1].
Definition div_smooth (_ : nat) : nat -> preds -> list R -> nat -> option R :=
  fitted_smoother (smoother_alg auto_other (Cut (Isotonic IncreasingOnly) Interpolating)) 2 [1; 1]%Q div_unc.
Definition div_loss (p : preds) : R := if Reqb (nth 0 (p_factors p) 0) (ln 2) then 10 else 1.
Definition div_prior : preds := {| p_factors := [0; 0]; p_exponents := [0; 0] |}.
Notation div_cfg := (ex_cfg true true false 0 2).

Lemma div_smooth_eq i it p k : div_smooth i it p [3; 2] k = nth k [Some (5 / 2); Some (5 / 2)] None.
Proof.
  unfold div_smooth, fitted_smoother. cbn [smoother_alg].
  rewrite isotonic_bins by reflexivity. cbn [isotonic_values direction_bool direction_of].
  change (inverse_variances _) with [isotonic_weight 1; isotonic_weight 1].
  rewrite pool_two by (try apply weight_pos; lra). cbn [map]. replace ((3 + 2) / 2) with (5 / 2) by lra. reflexivity.
Qed.
Lemma div_new s it p : s_zero s = false -> new_factors div_calc div_smooth ex_id ex_rate 0 div_feature s it p =
  ([3; 2; 0], [5 / 2; 5 / 2; 0]).
Proof.
  intro Z. unfold new_factors. rewrite Z. change (f_finite div_feature) with 2%nat.
  cbn [div_calc firstn seq map app nth f_mnl div_feature]. rewrite !div_smooth_eq. cbn [nth]. unfold ex_rate, ex_id. f_equal.
  rewrite !Rmult_1_l, Rmult_0_l. reflexivity.
Qed.
Notation div_iter := (iteration div_cfg [div_feature] div_calc div_smooth ex_id ex_rate div_loss 1).
Notation div_end := [3 + ln (8/10); 2 + ln (8/10); 0].

Lemma div_clip : clip_step [5 / 2; 5 / 2; 0] = [ln 2; ln 2; 0].
Proof. pose proof ln_facts. unfold clip_step. cbn [map]. repeat (f_equal; try (real_step; reflexivity)). Qed.
Lemma div_bad : div_loss {| p_factors := [ln 2; ln 2]; p_exponents := [0; 0] |} = 10.
Proof. unfold div_loss. cbn. now rewrite (proj2 (Reqb_iff _ _) eq_refl). Qed.
Lemma div_good x y : x <> ln 2 -> div_loss {| p_factors := [x; y]; p_exponents := [0; 0] |} = 1.
Proof. intro H. unfold div_loss. cbn. now rewrite (proj2 (Reqb_false_iff _ _) H). Qed.
Lemma div_iter0 : exists c d, 0 <= d /\ div_iter (init_state [div_feature] div_loss div_prior) =
  Ok {| t_preds := div_prior; t_feats := [auto_f [ln 2; ln 2; 0] [0; 0; 0] [0; 0; 0]];
        t_iter := 1; t_diverging := 1; t_isdiv := true; t_loss := 10; t_losschange := c; t_delta := d |}.
Proof.
  do 2 eexists. apply and_comm. refine (conj _ _). unfold iteration, init_state.
  cbn [map t_feats t_iter t_preds t_isdiv t_diverging t_loss features_pass].
  change (skipped div_cfg div_feature 0) with false. cbn iota.
  unfold feature_iteration. cbn [c_aggregate ex_cfg]. rewrite div_new by reflexivity.
  unfold visit_factors, limit_factors. cbn [c_log c_aggregate ex_cfg andb s_fitted init_fstate s_zero s_factors].
  rewrite div_clip.
  match goal with |- context [add_preds ?e ?p ?g] => replace (add_preds e p g) with {| p_factors := [ln 2; ln 2]; p_exponents := [0; 0] |} end.
  2:{ change (f_lex div_feature) with [0; 1]%nat. unfold div_prior, gather, vadd. cbn. repeat (f_equal; try ring). }
  rewrite div_bad. unfold is_diverged. rewrite (proj2 (Rltb_iff _ _)) by lra. cbn [andb Nat.leb remove_preds s_factors s_agg s_fitted s_old s_zero].
  change (f_lex div_feature) with [0; 1]%nat.
  unfold gather, vsub. cbn [map map2 nth f_ext div_feature sub_preds p_factors p_exponents]. unfold vsub. cbn [map2].
  rewrite !Rminus_diag_eq by reflexivity. reflexivity. apply deviation_nonneg.
Qed.
Lemma div_iter1 c d : exists c' d', div_iter
   {| t_preds := div_prior; t_feats := [auto_f [ln 2; ln 2; 0] [0; 0; 0] [0; 0; 0]];
      t_iter := 1; t_diverging := 1; t_isdiv := true; t_loss := 10; t_losschange := c; t_delta := d |} =
  Ok {| t_preds := {| p_factors := [3 + ln (8/10); 2 + ln (8/10)]; p_exponents := [0; 0] |};
        t_feats := [auto_f div_end [ln 2; ln 2; 0] div_end];
        t_iter := 2; t_diverging := 1; t_isdiv := false; t_loss := 1; t_losschange := c'; t_delta := d' |}.
Proof.
  pose proof ln_facts as LF. pose proof ln_limits_1 as LL.
  do 2 eexists. unfold iteration. cbn [t_feats t_iter t_preds t_isdiv t_diverging t_loss features_pass].
  change (skipped div_cfg div_feature 1) with false. cbn iota.
  unfold feature_iteration. cbn [c_aggregate ex_cfg]. rewrite div_new by reflexivity.
  unfold visit_factors, limit_factors. cbn [c_log c_aggregate ex_cfg andb s_fitted auto_f s_zero s_factors s_agg].
  rewrite div_clip. unfold clip_absolute, factor_limits. cbn [f_ext f_dim div_feature Nat.eqb map2].
  rewrite !(clip_mid (ln (1 / 100) - 0) (ln 1000 - 0)) by lra.
  match goal with |- context [div_loss (add_preds ?e ?p ?g)] =>
    replace (div_loss (add_preds e p g)) with 10 by
      (rewrite <- div_bad; f_equal; change (f_lex div_feature) with [0; 1]%nat; unfold div_prior, gather, vadd; cbn; repeat (f_equal; try ring)) end.
  replace (is_diverged 1 10) with true by (symmetry; unfold is_diverged; apply Rltb_iff; lra). cbn [Nat.ltb Nat.leb map2 s_factors].
  rewrite (clip_low (3 + ln (8 / 10))), (clip_low (2 + ln (8 / 10))), (clip_mid (0 + ln (8 / 10))) by lra.
  match goal with |- context [add_preds ?e ?p ?g] => replace (add_preds e p g) with
     {| p_factors := [3 + ln (8/10); 2 + ln (8/10)]; p_exponents := [0; 0] |} end.
  2:{ change (f_lex div_feature) with [0; 1]%nat. unfold div_prior, gather, vadd. cbn. repeat (f_equal; try ring). }
  rewrite div_good by lra. unfold is_diverged. rewrite (proj2 (Rltb_false _ _)) by lra. cbn [andb].
  unfold vadd. cbn [map2]. rewrite !Rplus_0_l. reflexivity.
Qed.

Lemma div_turns : exists st s a,
  fit_main div_cfg [div_feature] div_calc div_smooth ex_id ex_rate div_loss 2 div_prior = Some (Ok st) /\
  nth_error (t_feats st) 0 = Some s /\ s_agg s = Some a /\ nth 1 a 0 < nth 0 a 0.
Proof.
  destruct div_iter0 as (c & d & Hd & E0). destruct (div_iter1 c d) as (c' & d' & E1).
  pose proof ln_facts as LF. do 3 eexists. split.
  - unfold fit_main. replace (div_loss div_prior) with 1 by (symmetry; apply div_good; lra).
    erewrite loop_step; [|apply auto_continues; cbn; [lia|lra]|exact E0].
    erewrite loop_step; [|apply auto_continues; cbn; [lia|lra]|exact E1].
    rewrite loop_end by reflexivity. unfold finish. cbn [t_feats forallb s_agg auto_f andb t_loss t_diverging].
    rewrite andb_false_r. reflexivity.
  - cbn. split; [reflexivity|]. split; [reflexivity|]. cbn. lra.
Qed.

(** ** Calibrations *)
Lemma identity_moves n i : moves_all n (ex_id i).
Proof. intros v _. exists 0. intros k _. unfold ex_id. lra. Qed.

Lemma removelast_nth (v : list R) : forall k, (S k < length v)%nat -> nth k (removelast v) 0 = nth k v 0.
Proof.
  induction v as [|x v IH]; intros k H; cbn in H; [lia|]. destruct v as [|y v]; [cbn in H; lia|].
  destruct k; [reflexivity|]. cbn [nth]. change (removelast (x :: y :: v)) with (x :: removelast (y :: v)). cbn [nth]. apply IH. cbn in *. lia.
Qed.
Lemma removelast_len (v : list R) : length (removelast v) = pred (length v).
Proof. induction v as [|x v IH]; [reflexivity|]. destruct v as [|y v]; [reflexivity|]. change (removelast (x :: y :: v)) with (x :: removelast (y :: v)). cbn in *. lia. Qed.
Lemma location_moves features w m f : nth_error features m = Some f ->
  moves_all (f_finite f) (location_calibration features w m).
Proof.
  intros Hm v L. unfold location_calibration. rewrite Hm. set (ws := bincounts _ _ _). unfold calibrate, centred.
  destruct (f_mnl f).
  - set (q := sumR _ / _). exists (- q). intros k Hk.
    rewrite app_nth1 by (rewrite map_length, removelast_len; lia).
    rewrite (nth_indep _ 0 (0 - q)) by (rewrite map_length, removelast_len; lia).
    rewrite (map_nth (fun x => x - q)), removelast_nth by lia. lra.
  - set (q := sumR _ / _). exists (- q). intros k Hk. rewrite (nth_indep _ 0 (0 - q)) by (rewrite map_length; lia).
    rewrite (map_nth (fun x => x - q)). lra.
Qed.

Lemma auto_choice : choice_fct ChoiceGroupBy true false (fun _ : list unit => None) [tt] [IS_MONOTONIC] = Some auto_smoother.
Proof. reflexivity. Qed.
Lemma div_choice : choice_fct ChoiceGroupBy true false (fun _ : list unit => None) [tt] [N.lor IS_MONOTONIC INCREASING] =
  Some (Cut (Isotonic IncreasingOnly) Interpolating).
Proof. reflexivity. Qed.

(** ** The hypotheses of the theorem on training are met *)
Lemma div_shapes : well_shaped 2 [div_feature] div_prior /\ one_per_bin [div_feature] div_calc ex_id.
Proof.
  split.
  - split; [reflexivity|]. split; [reflexivity|]. intros f [<-|[]]. split; [reflexivity|].
    intros row [<-|[<-|[]]]; reflexivity.
  - split; [|reflexivity]. intros [|[|i]] f it p H; cbn in H; try discriminate. injection H as <-. reflexivity.
Qed.
Lemma div_monotonic : monotonic (N.lor IS_MONOTONIC INCREASING) /\ monotonic_increasing (N.lor IS_MONOTONIC INCREASING) /\
  monotonic_decreasing (N.lor IS_MONOTONIC DECREASING).
Proof. repeat split; reflexivity. Qed.
Lemma auto_continues_1 : continues (ex_cfg true false false 0 1) (init_state [div_feature] flat_loss div_prior) = true.
Proof.
  unfold continues, check_stop, stop_iterations, stop_factor_change, stop_loss_change, init_state.
  cbn [t_delta t_losschange t_iter c_maxiter c_minfactor c_minloss ex_cfg Nat.leb]. rewrite (proj2 (Rleb_false _ _)) by lra.
  rewrite (proj2 (Rleb_false _ _)); [reflexivity|]. pose proof (Rabs_pos (IZR (10 ^ 20))). lra.
Qed.
Lemma div_plain : exists st, fit_main (ex_cfg true false false 0 1) [div_feature] div_calc div_smooth ex_id ex_rate flat_loss 1 div_prior = Some (Ok st).
Proof.
  assert (E : exists st, iteration (ex_cfg true false false 0 1) [div_feature] div_calc div_smooth ex_id ex_rate flat_loss
      (flat_loss div_prior) (init_state [div_feature] flat_loss div_prior) = Ok st /\
    t_isdiv st = false /\ t_iter st = 1%nat /\ t_diverging st = 0%nat /\ exists s a, t_feats st = [s] /\ s_agg s = Some a).
  { eexists. split.
    - unfold iteration, init_state. cbn [map t_feats t_iter t_preds t_isdiv t_diverging t_loss features_pass].
      change (skipped _ div_feature 0) with false. cbn iota.
      unfold feature_iteration. cbn [c_aggregate ex_cfg]. rewrite div_new by reflexivity.
      unfold visit_factors, limit_factors. cbn [c_log c_aggregate ex_cfg andb s_fitted init_fstate s_zero s_factors].
      unfold flat_loss, is_diverged. rewrite (proj2 (Rltb_false _ _)) by lra. cbn [andb]. reflexivity.
    - cbn. repeat split. do 2 eexists. split; reflexivity. }
  destruct E as (st & E & D & I & V & s & a & F & A). exists st. unfold fit_main.
  erewrite loop_step; [|apply auto_continues_1|exact E].
  rewrite loop_end.
  - unfold finish. rewrite F, V. cbn [forallb]. rewrite A. cbn. now rewrite andb_false_r.
  - unfold continues, check_stop, stop_iterations, veto_hierarchical. rewrite D, I. reflexivity.
Qed.
