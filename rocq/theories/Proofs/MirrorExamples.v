(** Smoothers that respect the mirror, and data on which whole trainings do not. *)
From Coq Require Import ZArith QArith Qround List Bool Reals Lra Lia Permutation.
From Verif.Model Require Import Num LexBins Train Predict Link Estimators Gbs WholeFit Regularize BinSmoothers.
From Verif.Spec Require Import DataSpec MirrorSpec.
From Verif.Proofs Require Import LinkFacts TrainFacts TrainExamples IsotonicRuns OrderFacts MirrorFacts WholeExamples BinFitExamples RefitExamples.
Import ListNotations.
Local Open Scope R_scope.

(** ** Smoothers *)
Lemma odd_bin_values : odd_smoother bin_values.
Proof. intros c w u v b. unfold bin_values. apply nth_error_map. Qed.
Lemma odd_cut s : odd_smoother s -> odd_smoother (cut_unseen s).
Proof. intros H c w u v b. unfold cut_unseen. destruct (Reqb _ 0); auto. Qed.

Lemma neg_close a b : isclose (- a) (- b) = isclose a b.
Proof. unfold isclose. rewrite Rabs_Ropp. replace (- a - - b) with (- (a - b)) by ring. rewrite Rabs_Ropp. auto. Qed.
Lemma neg_allclose v x : allclose (neg v) (- x) = allclose v x.
Proof. unfold allclose. induction v as [|a v IH]; cbn; auto. rewrite neg_close. f_equal. auto. Qed.

Definition error_weighted (v u : list R) (x0 : R) : option (list (option R)) :=
  if allclose v x0 then Some (map Some v)
  else if existsb (fun u => Reqb u 0) u then Some (map (fun _ => None) v)
  else
    let wx := map (fun u => 1 / (u * u)) u in
    let m := sumR (map2 Rmult wx v) / sumR wx in
    let i := 1 / (sumR (map2 (fun w x => w * (x - m) ^ 2) wx v) / sumR wx) in
    Some (map2 (fun w x => Some ((w * x + i * m) / (w + i))) wx v).
Lemma two_values x0 x1 v u : regularize_to_error_weighted_mean (x0 :: x1 :: v) u None =
  if negb (Nat.eqb (length (x0 :: x1 :: v)) (length u)) then None else error_weighted (x0 :: x1 :: v) u x0.
Proof. reflexivity. Qed.

Lemma odd_weighted_mean : odd_smoother (weighted_mean_bins None).
Proof.
  intros c w u v b. unfold weighted_mean_bins.
  assert (U : nth b (map Some (neg v)) None = option_map Ropp (nth b (map Some v) None)).
  { clear. revert b. induction v as [|a v IH]; intros [|b]; cbn; auto. }
  destruct v as [|x0 [|x1 v']].
  1-2: unfold regularize_to_error_weighted_mean; rewrite map_length; destruct (negb _); [reflexivity|exact U].
  change (neg (x0 :: x1 :: v')) with (- x0 :: - x1 :: neg v'). rewrite !two_values.
  change (- x0 :: - x1 :: neg v') with (neg (x0 :: x1 :: v')). rewrite map_length. destruct (negb _); auto.
  unfold error_weighted. cbv zeta.
  set (v := x0 :: x1 :: v') in *. clearbody v. rewrite neg_allclose. destruct (allclose v x0); [exact U|].
  destruct (existsb (fun u0 => Reqb u0 0) u).
  { rewrite map_map. clear. revert b. induction v as [|a v IH]; intros [|b]; cbn; auto. }
  set (wx := map (fun u0 => 1 / (u0 * u0)) u). rewrite neg_mul_r, neg_sum.
  set (m := sumR (map2 Rmult wx v) / sumR wx). replace (- sumR (map2 Rmult wx v) / sumR wx) with (- m) by (unfold m, Rdiv; lra).
  assert (S : map2 (fun w0 x => w0 * (x - - m) ^ 2) wx (neg v) = map2 (fun w0 x => w0 * (x - m) ^ 2) wx v).
  { clearbody m. clear. revert v. generalize wx. induction wx0 as [|a q IH]; intros [|x v]; cbn; auto. f_equal; [ring|apply IH]. }
  rewrite S. set (i := 1 / (sumR (map2 _ wx v) / sumR wx)). clearbody i. clear S. clearbody m. clear. revert v b. generalize wx.
  induction wx0 as [|a q IH]; intros [|x v] [|b]; cbn [map map2 nth option_map]; auto. f_equal. unfold Rdiv. ring.
Qed.
Lemma odd_explicit : odd_smoother explicit_mean.
Proof. apply odd_cut, odd_weighted_mean. Qed.

Lemma odd_prior_zero : odd_smoother (weighted_mean_bins (Some 0)).
Proof.
  intros c w u v b. unfold weighted_mean_bins, regularize_to_error_weighted_mean. rewrite map_length. destruct (negb _); [reflexivity|].
  assert (U : nth b (map Some (neg v)) None = option_map Ropp (nth b (map Some v) None)).
  { clear. revert b. induction v as [|a v IH]; intros [|b]; cbn; auto. }
  destruct v as [|x v']; [exact U|]. change (neg (x :: v')) with (- x :: neg v'). cbn iota. change (- x :: neg v') with (neg (x :: v')).
  set (v := x :: v') in *. clearbody v.
  assert (A : allclose (neg v) 0 = allclose v 0) by (rewrite <- (neg_allclose v 0), Ropp_0; reflexivity). rewrite A.
  destruct (allclose v 0); [exact U|]. cbv zeta.
  destruct (existsb (fun u0 => Reqb u0 0) u).
  { rewrite map_map. clear. revert b. induction v as [|a v IH]; intros [|b]; cbn; auto. }
  set (wx := map (fun u0 => 1 / (u0 * u0)) u).
  assert (S : map2 (fun w0 x => w0 * (x - 0) ^ 2) wx (neg v) = map2 (fun w0 x => w0 * (x - 0) ^ 2) wx v).
  { clear. revert v. generalize wx. induction wx0 as [|a q IH]; intros [|y v]; cbn; auto. f_equal; [ring|apply IH]. }
  rewrite S. set (i := 1 / (sumR (map2 _ wx v) / sumR wx)). clearbody i. clear. revert v b. generalize wx.
  induction wx0 as [|a q IH]; intros [|y v] [|b]; cbn [map map2 nth option_map]; auto. f_equal. unfold Rdiv. ring.
Qed.
Lemma odd_normalised s : odd_smoother s -> odd_smoother (normalised s).
Proof.
  intros H c w u v b. unfold normalised. cbv zeta.
  assert (E : bins_norm w (map Ropp v) = - bins_norm w v).
  { unfold bins_norm. cbv zeta. destruct (Rltb 0 (sumR w)); [|lra]. change (map Ropp v) with (neg v). rewrite neg_mul_l, neg_sum. unfold Rdiv. ring. }
  rewrite E. assert (M : map (fun x => x - - bins_norm w v) (map Ropp v) = map Ropp (map (fun x => x - bins_norm w v) v)).
  { rewrite !map_map. apply map_ext. intro. lra. }
  rewrite M, H. destruct (s c w u _ b); cbn [option_map]; [f_equal; lra|reflexivity].
Qed.
Lemma odd_default : odd_smoother default_unordered.
Proof. apply odd_cut, odd_normalised, odd_prior_zero. Qed.

(** ** Two rows of one category with opposite targets *)
Definition balanced (u v : R) : list sample := [w_row 0 u 1; w_row 0 v 1].
Definition unseen : list sample := [w_row 5 0 1].

Lemma balanced_lex u v g : f_lex (bind_group (balanced u v) 0 (w_group g)) = [0; 0]%nat /\ f_finite (bind_group (balanced u v) 0 (w_group g)) = 1%nat.
Proof. split; reflexivity. Qed.
Lemma balanced_well_formed u v g : well_formed [w_group g] (balanced u v).
Proof. intros s [|[|]] h S H; cbn in H; inversion H; subst. destruct S as [<-|[<-|[]]]; reflexivity. Qed.

Section Runs.
Variables (gm : R -> R) (bppf : R -> R -> R -> R) (erfinv : R -> R) (bad : R).

Lemma balanced_pass k u v g scale :
  (forall a, k <> GBSRegressor a) -> kind_scale k [u; v] [1; 1] = Some scale ->
  let D := balanced u v in let f := bind_group D 0 (w_group g) in
  let fs := snd (new_factors (fun i (_ : nat) p => map (estimate_value bad) (group_estimates gm bppf erfinv k [f] [u; v] [1; 1] i p))
    (fun i (_ : nat) p => group_smoother gm bppf erfinv bad k [w_group g] [f] [u; v] [1; 1] i p)
    (kind_calibration k [f] [1; 1]) ex_rate 0 f (init_fstate f) 0 {| p_factors := [scale; scale]; p_exponents := zeros 2 |}) in
  kind_loss bad k [u; v] [1; 1] [scale + nth 0 fs 0; scale + nth 0 fs 0] <= kind_loss bad k [u; v] [1; 1] [scale; scale] * 2 ->
  exists m, whole_fit gm bppf erfinv bad k false [w_group g] w_cfg ex_rate 1 D = Trained m /\
    whole_predict k false m unseen = [kind_output k scale].
Proof.
  intros NG SC D f fs HL. destruct (balanced_lex u v g) as [L F]. eexists. split.
  - eapply (one_pass gm bppf erfinv bad k false (w_group g) ex_rate D scale scale fs {| p_factors := [scale; scale]; p_exponents := zeros 2 |}).
    + exact SC.
    + assert (P : prior_offset (kind_link k) scale (map x_prior D) (map x_w D) = scale).
      { unfold prior_offset, link_option, weighted_mean. cbn [D balanced map w_row x_prior x_w finite_values finite_weights sumR map2].
        rewrite (proj2 (Reqb_iff _ _)) by lra. reflexivity. }
      destruct k; auto. exfalso. eapply NG; eauto.
    + reflexivity.
    + reflexivity.
    + reflexivity.
    + change (f_lex _) with [0; 0]%nat. cbn [p_factors gather map vadd map2]. exact HL.
  - unfold whole_predict, cb_predict. cbn [o_scale o_offset o_groups unseen map length linked_column prior_predictions repeat].
    unfold predict_extended. cbn [predict_from]. fold f.
    assert (E : m_ext (store f {| s_fitted := true; s_factors := fs; s_old := zeros (S (f_finite f)); s_agg := Some fs; s_zero := false |}) = false) by reflexivity.
    rewrite E. cbn [add_preds p_factors].
    assert (Q : predict_factors (store f {| s_fitted := true; s_factors := fs; s_old := zeros (S (f_finite f)); s_agg := Some fs; s_zero := false |}) (map (fun x : datarow => x 0%nat) [x_bins (w_row 5 0 1)]) = [0]).
    { unfold store. change (f_finite f) with 1%nat. clearbody fs. cbv zeta. cbn [s_agg].
      set (mv := firstn 1 fs). assert (LM : (length mv <= 1)%nat) by (unfold mv; rewrite firstn_length; lia). clearbody mv.
      unfold predict_factors. cbn [map existsb m_smoother m_missing w_row x_bins w_bins].
      change (w_bins 5 0) with [Fin 5]. change (row_finite_semi_positive [Fin 5]) with true. cbn [orb andb negb Nat.eqb].
      unfold smoother_predict. cbn [m_dim m_values]. change (f_dim f) with 1%nat. cbn [Nat.ltb Nat.leb]. unfold onedim_predict. change (w_bins 5 0) with [Fin 5]. cbn [hd]. cbv zeta.
      change (np_round (Fin 5)) with 5%Z. replace (5 <? Z.of_nat (length mv))%Z with false; [reflexivity|].
      symmetry. apply Z.ltb_ge. lia. }
    match goal with |- context [predict_factors ?m ?r] => replace (predict_factors m r) with [0] by (symmetry; exact Q) end.
    cbn [vadd map2 map]. rewrite Rplus_0_r. reflexivity.
Qed.

Lemma location_scale : kind_scale LocationRegressor [1; -1] [1; 1] = Some (1/1000).
Proof.
  cbn [kind_scale kind_link]. unfold global_scale, weighted_mean. cbn [sumR map2]. rewrite (proj2 (Reqb_false_iff _ _)) by lra.
  cbn [link_func]. f_equal. field.
Qed.
Lemma location_balanced : exists m, whole_fit gm bppf erfinv bad LocationRegressor false [w_group explicit_mean] w_cfg ex_rate 1 (balanced 1 (-1)) = Trained m /\
  whole_predict LocationRegressor false m unseen = [1/1000].
Proof.
  apply (balanced_pass LocationRegressor 1 (-1) explicit_mean (1/1000)); [discriminate|apply location_scale|].
  destruct (balanced_lex 1 (-1) explicit_mean) as [L F].
  match goal with |- context [new_factors ?a ?b ?c ?r ?i ?f ?s ?t ?p] => set (nf := new_factors a b c r i f s t p) end.
  assert (Z : nth 0 (snd nf) 0 = 0).
  { unfold nf, new_factors. cbv zeta. cbn [snd]. rewrite F. cbn [seq map app].
    unfold kind_calibration, location_calibration. cbn [nth_error]. rewrite L, F.
    change (f_mnl (bind_group (balanced 1 (-1)) 0 (w_group explicit_mean))) with false. cbn iota.
    unfold calibrate, centred, bincounts. cbn [map seq bin_total Nat.eqb map2 sumR nth]. field. }
  rewrite Z, Rplus_0_r. unfold kind_loss, squared_loss. cbn. lra.
Qed.

Lemma classifier_scale : kind_scale BinaryClassifier [0; 1] [1; 1] = Some (ln ((501/1000) / (1 - 501/1000))).
Proof.
  cbn [kind_scale kind_link]. unfold global_scale, weighted_mean. cbn [sumR map2]. rewrite (proj2 (Reqb_false_iff _ _)) by lra.
  replace ((0 * 1 + (1 * 1 + 0)) / (1 + (1 + 0)) + 1/1000) with (501/1000) by field.
  cbn [link_func]. rewrite !(proj2 (Rltb_iff _ _)) by lra. reflexivity.
Qed.
Lemma unlink_ln p : 0 < p < 1 -> unlink_func Logit (ln (p / (1 - p))) = p.
Proof.
  intro H. cbn. rewrite exp_Ropp, exp_ln by (apply Rdiv_lt_0_compat; lra). field. lra.
Qed.
Lemma classifier_balanced : exists m, whole_fit gm bppf erfinv bad BinaryClassifier false [w_group explicit_mean] w_cfg ex_rate 1 (balanced 0 1) = Trained m /\
  whole_predict BinaryClassifier false m unseen = [501/1000].
Proof.
  rewrite <- (unlink_ln (501/1000)) by lra.
  apply (balanced_pass BinaryClassifier 0 1 explicit_mean); [discriminate|apply classifier_scale|].
  match goal with |- context [nth 0 ?l 0] => generalize (nth 0 l 0) end. intro z.
  unfold kind_loss, squared_loss. cbn [kind_link map map2 sumR]. rewrite unlink_ln by lra.
  match goal with |- context [unlink_func Logit ?a] => pose proof (unlink_inside a); generalize dependent (unlink_func Logit a) end.
  intros p P. nra.
Qed.
End Runs.

Lemma balanced_mirror k u v : mirror_value k u = v -> mirror_value k v = u ->
  map (mirror_row k) (balanced u v) = [w_row 0 v 1; w_row 0 u 1].
Proof. intros E1 E2. cbn. unfold mirror_row, w_row. cbn. rewrite E1, E2. reflexivity. Qed.

Lemma balanced_refutes gm bppf erfinv bad k u v c : mirror_value k u = v -> mirror_value k v = u -> mirror_value k c <> c ->
  (exists m, whole_fit gm bppf erfinv bad k false [w_group explicit_mean] w_cfg ex_rate 1 (balanced u v) = Trained m /\
     whole_predict k false m unseen = [c]) ->
  exists m m', whole_fit gm bppf erfinv bad k false [w_group explicit_mean] w_cfg ex_rate 1 (balanced u v) = Trained m /\
    whole_fit gm bppf erfinv bad k false [w_group explicit_mean] w_cfg ex_rate 1 (map (mirror_row k) (balanced u v)) = Trained m' /\
    whole_predict k false m' (map (mirror_row k) unseen) <> map (mirror_value k) (whole_predict k false m unseen).
Proof.
  intros E1 E2 N [m [H P]]. exists m, m. split; [exact H|]. split.
  - rewrite (balanced_mirror k u v E1 E2), <- H. symmetry. apply order_irrelevant; [apply balanced_well_formed|]. apply perm_swap.
  - assert (X : whole_predict k false m (map (mirror_row k) unseen) = whole_predict k false m unseen) by reflexivity.
    rewrite X, P. cbn. congruence.
Qed.

(** Stand-ins for scipy's functions. *)
Definition mean_ppf (a b p : R) : R := a / (a + b).
Lemma mean_ppf_mirrored : mirrored_beta mean_ppf.
Proof.
  intros a b p A B _. unfold mean_ppf. split; [split|].
  - apply Rdiv_lt_0_compat; lra.
  - apply Rmult_lt_reg_r with (a + b); [lra|]. unfold Rdiv. rewrite Rmult_assoc, Rinv_l by lra. lra.
  - field. lra.
Qed.
Lemma id_odd : odd_increasing (fun x => x).
Proof. split; intros; lra. Qed.

Lemma location_refutes : exists gm bppf erfinv bad gs cfg rate fuel D m m' X,
  D <> [] /\ (forall s, In s D -> 0 < x_w s) /\ c_log cfg = false /\ (forall g, In g gs -> odd_smoother (g_smoother g)) /\
  whole_fit gm bppf erfinv bad LocationRegressor false gs cfg rate fuel D = Trained m /\
  whole_fit gm bppf erfinv bad LocationRegressor false gs cfg rate fuel (map (mirror_row LocationRegressor) D) = Trained m' /\
  whole_predict LocationRegressor false m' (map (mirror_row LocationRegressor) X) <>
    map (mirror_value LocationRegressor) (whole_predict LocationRegressor false m X).
Proof.
  destruct (balanced_refutes (fun x => x) mean_ppf (fun x => x) 0 LocationRegressor 1 (-1) (1/1000)) as [m [m' [A [B C]]]].
  - cbn. lra.
  - cbn. lra.
  - cbn. lra.
  - apply location_balanced.
  - exists (fun x => x), mean_ppf, (fun x => x), 0, [w_group explicit_mean], w_cfg, ex_rate, 1%nat, (balanced 1 (-1)), m, m', unseen.
    split; [discriminate|]. split; [|split; [reflexivity|split; [|auto]]].
    + intros s [<-|[<-|[]]]; cbn; lra.
    + intros g [<-|[]]. apply odd_explicit.
Qed.
Lemma classifier_refutes : exists gm bppf erfinv bad gs cfg rate fuel D m m' X,
  mirrored_beta bppf /\ odd_increasing erfinv /\ mirrored_targets BinaryClassifier D /\
  (forall s, In s D -> 0 < x_w s) /\ c_log cfg = false /\ (forall g, In g gs -> odd_smoother (g_smoother g)) /\
  whole_fit gm bppf erfinv bad BinaryClassifier false gs cfg rate fuel D = Trained m /\
  whole_fit gm bppf erfinv bad BinaryClassifier false gs cfg rate fuel (map (mirror_row BinaryClassifier) D) = Trained m' /\
  whole_predict BinaryClassifier false m' (map (mirror_row BinaryClassifier) X) <>
    map (mirror_value BinaryClassifier) (whole_predict BinaryClassifier false m X).
Proof.
  destruct (balanced_refutes (fun x => x) mean_ppf (fun x => x) 0 BinaryClassifier 0 1 (501/1000)) as [m [m' [A [B C]]]].
  - cbn. lra.
  - cbn. lra.
  - cbn. lra.
  - apply classifier_balanced.
  - exists (fun x => x), mean_ppf, (fun x => x), 0, [w_group explicit_mean], w_cfg, ex_rate, 1%nat, (balanced 0 1), m, m', unseen.
    split; [apply mean_ppf_mirrored|]. split; [apply id_odd|].
    split; [intros s [<-|[<-|[]]]; cbn; auto|]. split; [intros s [<-|[<-|[]]]; cbn; lra|]. split; [reflexivity|split; [|auto]].
    intros g [<-|[]]. apply odd_explicit.
Qed.

(** The training of RefitExamples in the mirror. *)
Lemma gbs_example gm bppf erfinv bad :
  -1 <= 0 /\ (forall s, In s d_one -> 0 <= x_w s) /\ c_log w_cfg = false /\ odd_smoother (g_smoother (r_style [c_a])) /\
  whole_fit gm bppf erfinv bad g_kind false [r_style [c_a]] w_cfg ex_rate 1 d_one = Trained r_one /\
  whole_fit gm bppf erfinv bad g_kind false [r_style [c_a]] w_cfg ex_rate 1 (map (mirror_row g_kind) d_one) = Trained (mirror_model r_one).
Proof.
  assert (A : (forall s, In s d_one -> 0 <= x_w s)) by (intros s [<-|[<-|[]]]; cbn; lra).
  assert (O : odd_smoother (g_smoother (r_style [c_a]))) by exact odd_bin_values.
  split; [lra|]. split; [exact A|]. split; [reflexivity|]. split; [exact O|]. split; [apply run_one|].
  pose proof (proj1 (gbs_mirror gm bppf erfinv bad 0 false [r_style [c_a]] w_cfg ex_rate 1 d_one ltac:(lra) A eq_refl ltac:(intros g [<-|[]]; exact O))) as M.
  change (GBSRegressor 0) with g_kind in M. rewrite M, run_one. reflexivity.
Qed.
(** A training of the location model from its baseline, and its mirror. *)
Lemma location_example gm bppf erfinv bad : exists m,
  fit_from gm bppf erfinv bad LocationRegressor false [w_group explicit_mean] w_cfg ex_rate 1 (1/1000) heavy = Trained m /\
  fit_from gm bppf erfinv bad LocationRegressor false [w_group explicit_mean] w_cfg ex_rate 1 (- (1/1000)) (map (mirror_row LocationRegressor) heavy) = Trained (mirror_model m).
Proof.
  exists (w_model (1201/100)).
  assert (E : fit_from gm bppf erfinv bad LocationRegressor false [w_group explicit_mean] w_cfg ex_rate 1 (1/1000) heavy = Trained (w_model (1201/100))).
  { rewrite <- (heavy_fit gm bppf erfinv bad), whole_is_from.
    assert (S : kind_scale LocationRegressor (map x_y heavy) (map x_w heavy) = Some (1/1000)).
    { cbn [kind_scale kind_link]. unfold global_scale, weighted_mean. cbn [heavy map w_row x_y x_w sumR map2].
      rewrite (proj2 (Reqb_false_iff _ _)) by lra. cbn [link_func]. f_equal. field. }
    rewrite S. reflexivity. }
  split; [exact E|]. rewrite from_mirror.
  - rewrite E. reflexivity.
  - split; [discriminate|]. intros s [<-|[<-|[]]]; cbn; lra.
  - exact I.
  - reflexivity.
  - intros g [<-|[]]. apply odd_explicit.
Qed.
Lemma odd_smoothers : odd_smoother bin_values /\ odd_smoother (weighted_mean_bins None) /\ odd_smoother explicit_mean /\ odd_smoother default_unordered.
Proof. split; [exact odd_bin_values|split; [exact odd_weighted_mean|split; [exact odd_explicit|exact odd_default]]]. Qed.
Lemma class_example : mirrored_beta mean_ppf /\ odd_increasing (fun x => x) /\ mirrored_targets BinaryClassifier (balanced 0 1).
Proof. split; [apply mean_ppf_mirrored|split; [apply id_odd|]]. intros s [<-|[<-|[]]]; cbn; auto. Qed.
