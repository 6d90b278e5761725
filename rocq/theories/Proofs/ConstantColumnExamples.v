(** A training of the location regressor with a constant column. *)
From Coq Require Import ZArith QArith Qround List Bool Arith Reals Lra Lia.
From Verif.Model Require Import Num LexBins Train Predict Link Estimators Gbs WholeFit Regularize BinSmoothers.
From Verif.Spec Require Import LexSpec DataSpec PredictSpec TrainSpec HierSpec InsampleSpec InertSpec ConstantColumnSpec.
From Verif.Proofs Require Import TrainFacts LinkFacts LexFacts TrainExamples WholeExamples DescentExamples CellExamples InsampleFacts LocationCellExamples InertFacts InertWhole InertExamples ConstantColumn SilentWhole.
Import ListNotations.
Local Open Scope R_scope.

(** The rows of [lc_data] with a second column in which every row has bin 0. *)
Definition k_row (s : sample) : sample :=
  {| x_bins := fun i => if Nat.eqb i 1 then [Fin 0] else x_bins s i; x_prior := x_prior s; x_y := x_y s; x_w := x_w s |}.
Definition lc_constant : list sample := map k_row lc_data.

Section Run.
Variables (gm : R -> R) (bppf : R -> R -> R -> R) (erfinv : R -> R) (bad : R).
Let k := LocationRegressor.
Let hs := [plain_group; plain_group].
Let f := bind_group lc_constant 0 plain_group.
Let e := bind_group lc_constant 1 plain_group.
Let y := map x_y lc_constant.
Let w := map x_w lc_constant.
Let calc := fun (i it : nat) (p : preds) => map (estimate_value bad) (group_estimates gm bppf erfinv k [f; e] y w i p).
Let smth := fun (i it : nat) (p : preds) => group_smoother gm bppf erfinv bad k hs [f; e] y w i p.
Let calb := kind_calibration k [f; e] w.
Let lss := fun p => kind_loss bad k y w (p_factors p).

Lemma k_lex : f_lex f = [0; 0; 1]%nat /\ f_finite f = 2%nat /\ f_lex e = [0; 0; 0]%nat /\ f_finite e = 1%nat.
Proof. repeat split; reflexivity. Qed.
Let c := 5501 / 1000.
Lemma k_scale : kind_scale k y w = Some c.
Proof.
  unfold k, y, w. cbn [kind_scale kind_link]. unfold global_scale, weighted_mean. cbn [lc_constant k_row lc_data map w_row x_y x_w sumR map2 link_func].
  rewrite (proj2 (Reqb_false_iff _ _)) by lra. f_equal. unfold c. field.
Qed.
Let a := (1 - c) * (2400 / 2491).
Let b := (10 - c) * (2400 / 2483).
Lemma pair_some (x y0 u v : R) : x = y0 -> u = v -> Some (x, u) = Some (y0, v).
Proof. intros -> ->. reflexivity. Qed.
Lemma k_variance : variance_prior y w = Some (83 / 4).
Proof.
  unfold variance_prior, weighted_mean, y, w. cbn [lc_constant k_row lc_data map w_row x_y x_w sumR map2].
  rewrite (proj2 (Reqb_false_iff _ _)) by lra. cbv zeta. rewrite (proj2 (Rleb_false _ _)) by lra. f_equal. field.
Qed.
Lemma k_variances : precalc_variance_y [0; 0; 1]%nat 3 y w = [Some (91/12); Some (83/12); Some (83/4)].
Proof.
  unfold precalc_variance_y. rewrite k_variance. unfold squared_residuals, y, w.
  cbn [seq map lc_constant k_row lc_data w_row x_y x_w map2 bin_total Nat.eqb in_bin existsb orb andb].
  rewrite !(proj2 (Reqb_false_iff _ _)) by lra. cbv zeta. f_equal; [|f_equal; [|f_equal]]; f_equal; field.
Qed.
Lemma k_estimates : exists u0 u1 u2, location_parameters [0; 0; 1]%nat 3 y w [c; c; c] = [Some (a, u0); Some (b, u1); Some (0, u2)].
Proof.
  unfold location_parameters. rewrite k_variances. cbv zeta. unfold calc_factors_generic, y, w.
  cbn [seq map lc_constant k_row lc_data w_row x_y x_w map2 bin_total Nat.eqb nth].
  rewrite !(proj2 (Reqb_false_iff _ _)) by lra. do 3 eexists.
  f_equal; [|f_equal; [|f_equal]]; apply pair_some; try reflexivity; unfold a, b, c; field.
Qed.
Let p0 := {| p_factors := [c; c; c]; p_exponents := zeros 3 |}.
Let m := (a + b) / 2.
Let fs := [a - m; b - m; - m].
Lemma first_factors : snd (new_factors calc smth calb ex_rate 0 f (init_fstate f) 0 p0) = fs.
Proof.
  destruct k_lex as (L & F & _). assert (Mn : f_mnl f = false) by reflexivity. destruct k_estimates as (u0 & u1 & u2 & K).
  unfold calc, smth, calb, new_factors. cbv zeta. cbn [snd]. unfold group_smoother, group_estimates, kind_calibration, k. cbn [nth_error hs].
  unfold location_calibration. cbn [nth_error]. clear calc smth calb lss. clearbody f. rewrite L, F.
  unfold p0. cbn [estimates p_factors]. rewrite K, Mn. cbn [map estimate_value estimate_uncertainty nth seq firstn s_zero init_fstate].
  cbn [plain_group w_group g_smoother]. unfold bin_values. cbn [nth_error app].
  unfold ex_rate, calibrate, centred, bincounts, w. cbn [seq map lc_constant k_row lc_data w_row x_w bin_total Nat.eqb map2 sumR].
  unfold fs, m. f_equal; [|f_equal; [|f_equal]]; field.
Qed.
Let p1 := {| p_factors := [c + (a - m); c + (a - m); c + (b - m)]; p_exponents := zeros 3 |}.
Let cfg := n_cfg 1.
Let s1 := {| s_fitted := true; s_factors := fs; s_old := zeros 3; s_agg := Some fs; s_zero := false |}.
Lemma first_group : feature_iteration cfg calc smth calb ex_rate lss 0 f (init_fstate f) 0 p0 false 0 (lss p0) = Ok (s1, p1).
Proof.
  destruct k_lex as (L & F & _). unfold feature_iteration. cbn [c_aggregate cfg n_cfg].
  pose proof first_factors as Hf. destruct (new_factors calc smth calb ex_rate 0 f (init_fstate f) 0 p0) as [un ff]. cbn [snd] in Hf. subst ff.
  unfold visit_factors, limit_factors. cbn [c_log c_aggregate cfg n_cfg andb s_fitted init_fstate s_zero s_factors]. rewrite L, F.
  change (f_ext f) with false. unfold add_preds, s1, p1, p0. cbn [p_factors p_exponents]. reflexivity.
Qed.
Lemma second_factors : exists z, snd (new_factors calc smth calb ex_rate 1 e (init_fstate e) 0 p1) = [0; z].
Proof.
  destruct k_lex as (_ & _ & L & F).
  unfold new_factors. cbv zeta. cbn [snd]. rewrite F. unfold calb, kind_calibration, k, location_calibration. cbn [nth_error].
  change (f_mnl e) with false. rewrite L, F. cbn [seq map app]. unfold calibrate, centred, bincounts, w.
  cbn [seq map lc_constant k_row lc_data w_row x_w bin_total Nat.eqb map2 sumR]. eexists. f_equal. field.
Qed.
Lemma second_group : exists s2, s_agg s2 <> None /\ feature_iteration cfg calc smth calb ex_rate lss 1 e (init_fstate e) 0 p1 false 0 (lss p0) = Ok (s2, p1).
Proof.
  destruct k_lex as (_ & _ & L & F). destruct second_factors as (z & Hf). unfold feature_iteration. cbn [c_aggregate cfg n_cfg].
  destruct (new_factors calc smth calb ex_rate 1 e (init_fstate e) 0 p1) as [un ff]. cbn [snd] in Hf. subst ff.
  unfold visit_factors, limit_factors. cbn [c_log c_aggregate cfg n_cfg andb s_fitted init_fstate s_zero s_factors]. rewrite L, F.
  change (f_ext e) with false. eexists. split; [|unfold add_preds, p1; cbn [p_factors p_exponents gather map nth vadd map2]; rewrite !Rplus_0_r; reflexivity]. discriminate.
Qed.
Lemma k_loss x0 x1 x2 : kind_loss bad k y w [x0; x1; x2] = (x0 ^ 2 + (x1 - 2) ^ 2 + 2 * (x2 - 10) ^ 2) / 4.
Proof.
  unfold k, y, w, kind_loss. cbv zeta. unfold squared_loss. cbn [kind_link map unlink_func lc_constant k_row lc_data w_row x_y x_w].
  repeat (match goal with |- context [Reqb ?x 0] => rewrite (proj2 (Reqb_false_iff x 0)) by lra end). cbn [map map2 sumR]. field.
Qed.
Lemma k_calm : is_diverged (lss p0) (lss p1) = false.
Proof. unfold is_diverged, lss, p0, p1. cbn [p_factors]. rewrite !k_loss. apply Rltb_false. unfold m, a, b, c. lra. Qed.

Theorem constant_run : exists t, whole_fit gm bppf erfinv bad LocationRegressor false hs (n_cfg 1) ex_rate 1 lc_constant = Trained t.
Proof.
  unfold whole_fit. fold y w. change LocationRegressor with k. rewrite k_scale. cbv zeta. unfold train. cbv zeta. fold y w.
  change (bind_groups lc_constant 0 hs) with [f; e]. fold calc. fold smth. fold calb. fold lss.
  match goal with |- context [fit_main _ _ _ _ _ _ _ 1 ?p] => change p with p0 end.
  destruct second_group as (s2 & A & G2).
  assert (E : exists st, fit_main (n_cfg 1) [f; e] calc smth calb ex_rate lss 1 p0 = Some (Ok st)).
  { unfold fit_main. eexists. erewrite loop_step.
    2:{ unfold continues, check_stop, stop_iterations, stop_factor_change, stop_loss_change, veto_hierarchical, init_state.
        cbn [t_delta t_losschange t_iter t_isdiv c_maxiter c_minfactor c_minloss c_thier c_hier n_cfg Nat.leb].
        rewrite (proj2 (Rleb_false (Rabs _) (-1))) by (pose proof (Rabs_pos (IZR (10 ^ 20))); lra). rewrite (proj2 (Rleb_false _ _)) by lra. reflexivity. }
    2:{ unfold iteration, init_state. cbn [map t_feats t_iter t_preds t_isdiv t_diverging t_loss features_pass].
        change (skipped (n_cfg 1) f 0) with false. cbn iota. fold cfg. rewrite first_group.
        change (skipped cfg e 0) with false. cbn iota. rewrite G2. rewrite k_calm. reflexivity. }
    rewrite loop_end by reflexivity.
    unfold finish. cbn [t_feats forallb s1 s_agg andb t_loss t_diverging]. destruct (s_agg s2); [|congruence]. cbn [andb]. rewrite andb_false_r. reflexivity. }
  destruct E as (st & E). rewrite E. eexists. reflexivity.
Qed.
End Run.

Lemma k_binned : binned_rows [plain_group; plain_group] lc_constant.
Proof.
  destruct lc_binned as (A & B & C). split; [|split].
  - intros r i g I G. apply in_map_iff in I as (r' & <- & I). destruct i as [|[|i]]; cbn in G; [injection G as <-|injection G as <-|destruct i; discriminate].
    + exact (A r' 0%nat plain_group I eq_refl).
    + reflexivity.
  - intros g [<-|[<-|[]]]; cbn; lia.
  - intros r i x I X. apply in_map_iff in I as (r' & <- & I). cbn [k_row x_bins] in X. destruct (Nat.eqb i 1); [|exact (C r' i x I X)].
    apply (C (w_row 0 0 1) 0%nat x); [left; reflexivity|exact X].
Qed.
Theorem constant_case gm bppf erfinv bad : exists t,
  whole_fit gm bppf erfinv bad LocationRegressor false [plain_group; plain_group] (n_cfg 1) ex_rate 1 lc_constant = Trained t /\
  binned_rows [plain_group; plain_group] lc_constant /\ Forall (fun s => 0 < x_w s) lc_constant /\
  (forall s, In s lc_constant -> x_bins s 1%nat = [Fin 0]) /\
  whole_predict LocationRegressor false t lc_constant = whole_predict LocationRegressor false (model_without 1 t) (map (row_without 1) lc_constant) /\
  whole_fit gm bppf erfinv bad LocationRegressor false [plain_group] (n_cfg 1) ex_rate 1 (map (row_without 1) lc_constant) = Trained (model_without 1 t).
Proof.
  destruct (constant_run gm bppf erfinv bad) as (t & T). exists t. split; [exact T|]. split; [exact k_binned|].
  assert (W : Forall (fun s => 0 < x_w s) lc_constant) by (repeat constructor; cbn; lra). split; [exact W|].
  assert (K : forall s, In s lc_constant -> x_bins s 1%nat = [Fin 0]) by (intros s I; apply in_map_iff in I as (r & <- & _); reflexivity).
  split; [exact K|].
  split; cycle 1.
  { pose proof (constant_training gm bppf erfinv bad false [plain_group; plain_group] (n_cfg 1) ex_rate lc_constant 1 plain_group eq_refl [Fin 0] eq_refl k_binned
      ltac:(discriminate) W (or_introl eq_refl) K 1%nat ltac:(cbn; lra) ltac:(discriminate) (or_introl eq_refl)) as X.
    rewrite T in X. exact X. }
  apply (constant_column _ _ _ _ _ _ _ _ _ _ _ 1 [Fin 0] T eq_refl k_binned); [discriminate|exact W| |exact K|exact K].
  intros i g G. left. destruct i as [|[|i]]; cbn in G; [injection G as <-; reflexivity|injection G as <-; reflexivity|destruct i; discriminate].
Qed.

(** ** The background subtraction regressor *)
Definition noisy_constant : list sample := map k_row noisy.
Section Background.
Variables (gm : R -> R) (bppf : R -> R -> R -> R) (erfinv : R -> R) (bad : R).
Let k := GBSRegressor 0.
Let hs := [plain_group; plain_group].
Let f := bind_group noisy_constant 0 plain_group.
Let e := bind_group noisy_constant 1 plain_group.
Let y := map x_y noisy_constant.
Let w := map x_w noisy_constant.
Let calc := fun (i it : nat) (p : preds) => map (estimate_value bad) (group_estimates gm bppf erfinv k [f; e] y w i p).
Let smth := fun (i it : nat) (p : preds) => group_smoother gm bppf erfinv bad k hs [f; e] y w i p.
Let calb := kind_calibration k [f; e] w.
Let lss := fun p => kind_loss bad k y w (p_factors p).
Let p0 := {| p_factors := [0; 0; 0; 0; 0; 0]; p_exponents := zeros 6 |}.
Let p1 := {| p_factors := [2/3; 2/3; -2/5; -2/5; -2/5; -2/5]; p_exponents := zeros 6 |}.
Let z := 4/105.
Let p2 := {| p_factors := [2/3 + z; 2/3 + z; -2/5 + z; -2/5 + z; -2/5 + z; -2/5 + z]; p_exponents := zeros 6 |}.
Let s1 := {| s_fitted := true; s_factors := [2/3; -2/5; 0]; s_old := zeros 3; s_agg := Some [2/3; -2/5; 0]; s_zero := false |}.
Let s2 := {| s_fitted := true; s_factors := [z; 0]; s_old := zeros 2; s_agg := Some [z; 0]; s_zero := false |}.

Lemma b_lex : f_lex f = [0; 0; 1; 1; 1; 1]%nat /\ f_finite f = 2%nat /\ f_lex e = repeat 0%nat 6 /\ f_finite e = 1%nat.
Proof. repeat split; reflexivity. Qed.
Lemma b_factors : snd (new_factors calc smth calb ex_rate 0 f (init_fstate f) 0 p0) = [2/3; -2/5; 0].
Proof.
  destruct b_lex as (L & F & _). assert (Mn : f_mnl f = false) by reflexivity.
  unfold calc, smth, calb, y, w. change (map x_y noisy_constant) with (map x_y noisy). change (map x_w noisy_constant) with (map x_w noisy).
  unfold new_factors. cbv zeta. cbn [snd]. unfold group_smoother, group_estimates. cbn [nth_error hs]. clear calc smth calb lss. clearbody f. rewrite L, F.
  unfold k, p0. cbn [estimates p_factors]. rewrite noisy_estimates. rewrite Mn. cbn [map estimate_value estimate_uncertainty nth seq firstn s_zero init_fstate].
  cbn [plain_group w_group g_smoother]. unfold bin_values. cbn [nth_error].
  unfold ex_rate, kind_calibration. cbn [app]. f_equal; [lra|f_equal; [lra|f_equal; lra]].
Qed.
Lemma b_estimates : exists u v, gbs_parameters 0 [0; 0; 0; 0; 0; 0]%nat 2 (map x_y noisy) (map x_w noisy) [2/3; 2/3; -2/5; -2/5; -2/5; -2/5] = [Some (z, u); Some (0, v)].
Proof.
  unfold gbs_parameters, gbs_bin. cbn [noisy map w_row x_y x_w seq map2 bin_total Nat.eqb].
  repeat (match goal with
  | |- context [Reqb ?a 0] => rewrite (proj2 (Reqb_false_iff a 0)) by lra
  | |- context [Rltb ?a 0] => rewrite (proj2 (Rltb_false a 0)) by lra end).
  do 2 eexists. f_equal; [|f_equal]; apply pair_some; try reflexivity; unfold z; field.
Qed.
Lemma b_second : snd (new_factors calc smth calb ex_rate 1 e (init_fstate e) 0 p1) = [z; 0].
Proof.
  destruct b_lex as (_ & _ & L & F). assert (Mn : f_mnl e = false) by reflexivity. destruct b_estimates as (u & v & K).
  unfold calc, smth, calb, y, w. change (map x_y noisy_constant) with (map x_y noisy). change (map x_w noisy_constant) with (map x_w noisy).
  unfold new_factors. cbv zeta. cbn [snd]. unfold group_smoother, group_estimates. cbn [nth_error hs]. clear calc smth calb lss. clearbody e. rewrite L, F.
  unfold k, p1. cbn [estimates p_factors repeat]. rewrite K, Mn. cbn [map estimate_value estimate_uncertainty nth seq firstn s_zero init_fstate].
  cbn [plain_group w_group g_smoother]. unfold bin_values. cbn [nth_error].
  unfold ex_rate, kind_calibration. cbn [app]. f_equal; [lra|f_equal; lra].
Qed.
Lemma b_first_group : feature_iteration (n_cfg 1) calc smth calb ex_rate lss 0 f (init_fstate f) 0 p0 false 0 (lss p0) = Ok (s1, p1).
Proof.
  destruct b_lex as (L & F & _). unfold feature_iteration. cbn [c_aggregate n_cfg].
  pose proof b_factors as Hf. destruct (new_factors calc smth calb ex_rate 0 f (init_fstate f) 0 p0) as [un ff]. cbn [snd] in Hf. subst ff.
  unfold visit_factors, limit_factors. cbn [c_log c_aggregate n_cfg andb s_fitted init_fstate s_zero s_factors]. rewrite L, F.
  change (f_ext f) with false. unfold add_preds, s1, p1, p0. cbn [p_factors p_exponents]. do 3 f_equal. cbn. repeat (f_equal; try lra).
Qed.
Lemma b_second_group : feature_iteration (n_cfg 1) calc smth calb ex_rate lss 1 e (init_fstate e) 0 p1 false 0 (lss p0) = Ok (s2, p2).
Proof.
  destruct b_lex as (_ & _ & L & F). unfold feature_iteration. cbn [c_aggregate n_cfg].
  pose proof b_second as Hf. destruct (new_factors calc smth calb ex_rate 1 e (init_fstate e) 0 p1) as [un ff]. cbn [snd] in Hf. subst ff.
  unfold visit_factors, limit_factors. cbn [c_log c_aggregate n_cfg andb s_fitted init_fstate s_zero s_factors]. rewrite L, F.
  change (f_ext e) with false. unfold add_preds, s2, p2, p1. cbn [p_factors p_exponents]. do 3 f_equal.
Qed.
Lemma b_calm : is_diverged (lss p0) (lss p2) = false.
Proof.
  unfold is_diverged, lss, k, y, w. change (map x_y noisy_constant) with (map x_y with_empty). change (map x_w noisy_constant) with (map x_w with_empty).
  unfold p0, p2. cbn [p_factors]. rewrite !(e_loss bad). apply Rltb_false. unfold z. lra.
Qed.
Lemma b_scale : kind_scale k y w = Some 0.
Proof. exact e_scale. Qed.

Theorem background_shifted : exists t,
  whole_fit gm bppf erfinv bad k false hs (n_cfg 1) ex_rate 1 noisy_constant = Trained t /\
  nth_error (whole_predict k false t noisy_constant) 0 = Some (74/105) /\
  nth_error (whole_predict k false (model_without 1 t) (map (row_without 1) noisy_constant)) 0 = Some (2/3).
Proof.
  unfold whole_fit. fold y w. rewrite b_scale. cbv zeta. unfold k at 1. cbn [kind_offset]. unfold train. cbv zeta. fold y w.
  change (bind_groups noisy_constant 0 hs) with [f; e]. fold calc. fold smth. fold calb. fold lss.
  match goal with |- context [fit_main _ _ _ _ _ _ _ 1 ?p] => change p with p0 end.
  assert (E : exists st, t_feats st = [s1; s2] /\ fit_main (n_cfg 1) [f; e] calc smth calb ex_rate lss 1 p0 = Some (Ok st)).
  { unfold fit_main. eexists. split; cycle 1. erewrite loop_step.
    2:{ unfold continues, check_stop, stop_iterations, stop_factor_change, stop_loss_change, veto_hierarchical, init_state.
        cbn [t_delta t_losschange t_iter t_isdiv c_maxiter c_minfactor c_minloss c_thier c_hier n_cfg Nat.leb].
        rewrite (proj2 (Rleb_false (Rabs _) (-1))) by (pose proof (Rabs_pos (IZR (10 ^ 20))); lra). rewrite (proj2 (Rleb_false _ _)) by lra. reflexivity. }
    2:{ unfold iteration, init_state. cbn [map t_feats t_iter t_preds t_isdiv t_diverging t_loss features_pass].
        change (skipped (n_cfg 1) f 0) with false. cbn iota. rewrite b_first_group.
        change (skipped (n_cfg 1) e 0) with false. cbn iota. rewrite b_second_group. rewrite b_calm. reflexivity. }
    { rewrite loop_end by reflexivity.
      unfold finish. cbn [t_feats forallb s1 s2 s_agg andb t_loss t_diverging]. rewrite andb_false_r. reflexivity. }
    reflexivity. }
  destruct E as (st & Fs & E).
  match goal with |- context [fit_main ?c ?F ?a ?b ?d ?r ?l 1 ?p] => replace (fit_main c F a b d r l 1%nat p) with (Some (Ok st)) by (symmetry; exact E) end.
  rewrite Fs. eexists. split; [reflexivity|].
  unfold whole_predict, cb_predict, model_without. cbn [o_scale o_offset o_groups o_iterations o_loss map2 without].
  unfold predict_extended. cbn [predict_from]. change (m_ext (store e s2)) with false. change (m_ext (store f s1)) with false.
  split.
  - unfold predict_factors, noisy_constant, noisy. cbn [map]. unfold store. cbn. f_equal.
    match goal with |- 0 + ?x + ?x' = _ => replace x with (1 * (2/3)) by reflexivity; replace x' with (1 * z) by reflexivity end. unfold z. lra.
  - unfold predict_factors, noisy_constant, noisy. cbn [map]. unfold store. cbn. f_equal. match goal with |- 0 + ?x = _ => replace x with (1 * (2/3)) by reflexivity end. lra.
Qed.
End Background.

Theorem background_constant : forall gm bppf erfinv bad, exists t,
  whole_fit gm bppf erfinv bad (GBSRegressor 0) false [plain_group; plain_group] (n_cfg 1) ex_rate 1 noisy_constant = Trained t /\
  (forall s, In s noisy_constant -> x_bins s 1%nat = [Fin 0]) /\
  nth_error (whole_predict (GBSRegressor 0) false t noisy_constant) 0 = Some (74/105) /\
  nth_error (whole_predict (GBSRegressor 0) false (model_without 1 t) (map (row_without 1) noisy_constant)) 0 = Some (2/3).
Proof.
  intros gm bppf erfinv bad. destruct (background_shifted gm bppf erfinv bad) as (t & T & A & B). exists t. split; [exact T|]. split; [|split; [exact A|exact B]].
  intros s I. apply in_map_iff in I as (r & <- & _). reflexivity.
Qed.
