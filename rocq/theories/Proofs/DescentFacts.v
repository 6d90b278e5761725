(** The course of the loss when no feature group can increase it. *)
From Coq Require Import ZArith List Bool Reals Lia Lra Psatz.
From Verif.Model Require Import Num LexBins Train Predict Link Estimators Regularize Gbs BinSmoothers WholeFit Diagnostics.
From Verif.Spec Require Import TrainSpec DataSpec PredictSpec EstimatorSpec RegularizeSpec GbsSpec InsampleSpec DescentSpec.
From Verif.Proofs Require Import TrainFacts TrainExamples PredictFacts ImportanceFacts LinkFacts EstimatorFacts RegularizeFacts GbsFacts PipeMonotone InsampleFacts TotalFacts.
Import ListNotations.
Local Open Scope R_scope.

(** ** The loop *)
Section Loop.
Variable cfg : settings.
Variable features : list feature.
Variable calc : nat -> nat -> preds -> list R.
Variable smooth : nat -> nat -> preds -> list R -> nat -> option R.
Variable calib : nat -> list R -> list R.
Variable rate : nat -> nat -> R.
Variable loss : preds -> R.
Variable prior : preds.
Variable N : nat.
Hypothesis Hw : well_shaped N features prior.
Hypothesis Hlog : c_log cfg = false.
Hypothesis Hagg : c_aggregate cfg = true.
Notation iter := (iteration cfg features calc smooth calib rate loss).
Notation fiter := (feature_iteration cfg calc smooth calib rate loss).
Notation fpass := (features_pass cfg calc smooth calib rate loss).

Definition moved (i : nat) (f : feature) (s : fstate) (it : nat) (p : preds) : preds :=
  add_preds (f_ext f) p (gather (snd (new_factors calc smooth calib rate i f s it p)) (f_lex f)).
Definition gentle : Prop := forall i f s it p, nth_error features i = Some f -> plen N p ->
  loss (moved i f s it p) <= loss p /\
  (loss (moved i f s it p) = loss p -> p_factors (moved i f s it p) = p_factors p).
Hypothesis Hstep : gentle.

Lemma step_down i f s it p d k i0 : nth_error features i = Some f -> plen N p ->
  exists s', fiter i f s it p d k i0 = Ok (s', moved i f s it p) /\ plen N (moved i f s it p).
Proof.
  intros Hi Hp. unfold feature_iteration, moved. rewrite Hagg. cbv zeta.
  destruct (new_factors calc smooth calib rate i f s it p) as [u fs]. cbn [snd].
  unfold visit_factors, limit_factors. rewrite Hlog. cbn [andb s_factors]. eexists. split; [reflexivity|].
  apply plen_add; [exact Hp|]. apply (gather_len features prior N Hw). apply (nth_error_In _ _ Hi).
Qed.

Lemma pass_down fl : forall i sl it p d k i0,
  (forall m f, nth_error fl m = Some f -> nth_error features (i + m) = Some f) ->
  plen N p -> exists sl' p', fpass i fl sl it p d k i0 = Ok (sl', p') /\ plen N p' /\
    loss p' <= loss p /\ (loss p' = loss p -> p_factors p' = p_factors p).
Proof.
  induction fl as [|f fl IH]; intros i sl it p d k i0 Hf Hp; [exists [], p; cbn; repeat split; auto; try lra; apply Hp|].
  destruct sl as [|s sl]; [exists [], p; cbn; repeat split; auto; try lra; apply Hp|].
  assert (Hi : nth_error features i = Some f). { rewrite <- (Nat.add_0_r i). apply (Hf 0%nat). reflexivity. }
  assert (Hf' : forall m g, nth_error fl m = Some g -> nth_error features (S i + m) = Some g).
  { intros m g Hg. replace (S i + m)%nat with (i + S m)%nat by lia. apply (Hf (S m)). exact Hg. }
  cbn [features_pass]. destruct (skipped cfg f it).
  - destruct (IH (S i) sl it p d k i0 Hf' Hp) as (sl' & p' & E & L & D & Q). rewrite E. eexists _, p'. split; [reflexivity|auto].
  - destruct (step_down i f s it p d k i0 Hi Hp) as (s' & E1 & L1). rewrite E1.
    destruct (Hstep i f s it p Hi Hp) as (D1 & Q1).
    destruct (IH (S i) sl it _ d k i0 Hf' L1) as (sl' & p' & E & L & D & Q). rewrite E. eexists _, p'. split; [reflexivity|].
    split; [exact L|]. split; [lra|]. intro EQ. rewrite Q by lra. apply Q1. lra.
Qed.

(** What holds in every pass. *)
Definition good (i0 : R) (st : state) : Prop :=
  plen N (t_preds st) /\ t_loss st = loss (t_preds st) /\ t_loss st <= i0 /\ t_isdiv st = false.

Lemma iteration_down i0 st : 0 <= i0 -> good i0 st ->
  exists st', iter i0 st = Ok st' /\ good i0 st' /\ t_loss st' <= t_loss st /\
    (t_loss st' = t_loss st -> p_factors (t_preds st') = p_factors (t_preds st)).
Proof.
  intros I0 (G1 & G2 & G3 & G4). unfold iteration.
  destruct (pass_down features 0 (t_feats st) (t_iter st) (t_preds st) (t_isdiv st) (t_diverging st) i0 ltac:(intros m f H; exact H) G1)
    as (sl & p & E & L & D & Q). rewrite E.
  assert (ND : is_diverged i0 (loss p) = false) by (unfold is_diverged; apply Rltb_false; lra).
  rewrite ND. cbn [andb]. eexists. split; [reflexivity|]. unfold good. cbn. rewrite G2 in *. repeat split; auto; try lra; apply L.
Qed.

Lemma finish_down i0 st : 0 <= i0 -> good i0 st -> finish i0 st = Ok st \/ finish i0 st = Raise TypeError.
Proof.
  intros I0 (_ & _ & G3 & _). unfold finish. destruct (forallb _ _); [|auto].
  assert (ND : is_diverged i0 (t_loss st) = false) by (unfold is_diverged; apply Rltb_false; lra).
  rewrite ND. auto.
Qed.

Lemma loop_down i0 : 0 <= i0 -> forall fuel st r, good i0 st -> loop cfg features calc smooth calib rate loss fuel i0 st = Some r ->
  r = Raise TypeError \/ exists st', r = Ok st' /\ good i0 st' /\ t_loss st' <= t_loss st /\
    (t_loss st' = t_loss st -> p_factors (t_preds st') = p_factors (t_preds st)).
Proof.
  intro I0. induction fuel as [|fuel IH]; intros st r G E; cbn [loop] in E; destruct (continues cfg st); try discriminate.
  1, 3: injection E as <-; destruct (finish_down i0 st I0 G) as [->| ->]; [right; exists st; split; [reflexivity|split; [exact G|split; [lra|reflexivity]]]|left; reflexivity].
  destruct (iteration_down i0 st I0 G) as (st' & E' & G' & D & Q). rewrite E' in E.
  destruct (IH st' r G' E) as [?|(st2 & ? & G2 & D2 & Q2)]; [left; auto|right; exists st2; split; [auto|split; [exact G2|split; [lra|]]]].
  intro EQ. rewrite Q2 by lra. apply Q. lra.
Qed.

(** The losses recorded. *)
Lemma record_fold calls : forall r, r_loss (fold_left (observe (-1)) calls r) = r_loss r ++ map (fun c => t_loss (snd c)) calls.
Proof.
  induction calls as [|[it st] calls IH]; intro r; cbn [fold_left map]; [rewrite app_nil_r; reflexivity|].
  rewrite IH. unfold observe at 1. cbn [r_loss snd]. replace (Z.eqb (-1) (-1)) with true by reflexivity.
  rewrite orb_true_r. rewrite <- app_assoc. reflexivity.
Qed.

Definition losses fuel i0 st := map (fun c => t_loss (snd c)) (observe_calls cfg features calc smooth calib rate loss fuel i0 st).

Lemma losses_down i0 : 0 <= i0 -> forall fuel st, good i0 st ->
  never_rises (losses fuel i0 st) /\ (forall a l, losses fuel i0 st = a :: l -> a = t_loss st).
Proof.
  intro I0. unfold losses. induction fuel as [|fuel IH]; intros st G; cbn [observe_calls]; destruct (continues cfg st).
  2, 4: destruct (forallb _ _); cbn; split; auto; intros a l E; congruence.
  1: cbn; split; auto; discriminate.
  destruct (iteration_down i0 st I0 G) as (st' & E' & G' & D & _). rewrite E'. destruct (IH st' G') as (A & B).
  cbn [map snd]. split; [|intros a l E; congruence].
  destruct (map _ (observe_calls cfg features calc smooth calib rate loss fuel i0 st')) as [|b l] eqn:EL; [exact I|].
  cbn [never_rises]. rewrite (B b l eq_refl) in *. split; [exact D|exact A].
Qed.

Lemma good_init : plen N prior -> good (loss prior) (init_state features loss prior).
Proof. intro L. unfold good, init_state; cbn. repeat split; try lra; apply L. Qed.

Lemma observed_down fuel : plen N prior -> 0 <= loss prior ->
  never_rises (r_loss (observed cfg features calc smooth calib rate loss (-1) fuel prior)).
Proof.
  intros L P. unfold observed. rewrite record_fold. cbn [r_loss new_record app].
  apply (losses_down (loss prior) P fuel _ (good_init L)).
Qed.
End Loop.

(** ** A pass over a feature group *)
Lemma partition lex v n : per_row lex v -> (forall b, In b lex -> (b < n)%nat) ->
  sumR v = sumR (map (bin_sum lex (at_row v)) (seq 0 n)).
Proof.
  intros L B. rewrite (sumR_ext _ (fun k => bin_total lex v k * 1)) by (intros k _; rewrite bin_total_sum by exact L; ring).
  rewrite (bin_total_all lex v n (fun _ => 1) L B). clear B. unfold per_row in L. revert v L.
  induction lex as [|b lex IH]; intros [|x v] L; cbn in L |- *; try discriminate; [reflexivity|]. rewrite IH by lia. ring.
Qed.

Lemma bin_sum_ext_in lex u v k : (forall j, row_in lex k j -> u j = v j) -> bin_sum lex u k = bin_sum lex v k.
Proof. intro H. apply Rle_antisym; apply bin_sum_le; intros j J; rewrite (H j J); lra. Qed.

Definition row_squares (w p y : list R) : list R := map2 Rmult w (map2 (fun a v => (a - v) ^ 2) p y).

Lemma squares_bins lex w p y c n : per_row lex w -> per_row lex p -> per_row lex y -> (forall b, In b lex -> (b < n)%nat) ->
  sumR (row_squares w (vadd p (gather c lex)) y) = sumR (map (fun k => bin_error lex y w p k (nth k c 0)) (seq 0 n)).
Proof.
  intros Lw Lp Ly B. unfold per_row in *.
  assert (LV : length (vadd p (gather c lex)) = length lex) by (unfold vadd; rewrite map2_length; rewrite ?gather_length; lia).
  assert (LR : length (map2 (fun a v => (a - v) ^ 2) (vadd p (gather c lex)) y) = length lex) by (rewrite map2_length; lia).
  rewrite (partition lex _ n); [|unfold per_row, row_squares; rewrite map2_length; lia|exact B].
  apply sumR_ext. intros k _. unfold bin_error. apply bin_sum_ext_in. intros j J.
  assert (Jl : (j < length lex)%nat) by (apply nth_error_Some; unfold row_in in J; congruence).
  unfold row_squares. rewrite nth_map2 by lia. rewrite nth_map2 by lia. rewrite nth_vadd by (rewrite gather_length; lia).
  rewrite nth_gather by exact Jl. rewrite (nth_error_nth lex j 0%nat J). ring.
Qed.

Lemma vadd_zero p c : length c = length p -> (forall j, (j < length p)%nat -> nth j c 0 = 0) -> vadd p c = p.
Proof.
  intros L Z. apply (nth_ext _ _ 0 0).
  - unfold vadd. apply map2_length. lia.
  - intros j J. rewrite nth_vadd by lia. unfold vadd in J. rewrite map2_length in J by lia. rewrite Z by lia. ring.
Qed.

Lemma sumR_nonneg_list l : (forall v, In v l -> 0 <= v) -> 0 <= sumR l.
Proof. induction l as [|a l IH]; intro P; cbn; [lra|]. pose proof (P a (or_introl eq_refl)). pose proof (IH (fun v I => P v (or_intror I))). lra. Qed.

Lemma sum_nonpos (g : nat -> R) l : (forall k, In k l -> g k <= 0) ->
  sumR (map g l) <= 0 /\ (sumR (map g l) = 0 -> forall k, In k l -> g k = 0).
Proof.
  induction l as [|a l IH]; intros H; cbn [map sumR]; [split; [lra|intros _ k []]|].
  destruct IH as (A & B); [intros; apply H; right; auto|]. pose proof (H a (or_introl eq_refl)). split; [lra|].
  intros E k [<-|K]; [lra|]. apply B; [lra|exact K].
Qed.

(** Moving a bin towards its estimate. *)
Lemma between_zero x v : between x 0 v -> 0 <= v * x /\ v * v <= v * x.
Proof.
  unfold between, Rmin, Rmax. intros (A & B).
  destruct (Rle_dec x 0) as [L|L]; [|apply Rnot_le_lt in L]; split; try nra.
Qed.
Lemma between_scale r x v : 0 <= r <= 1 -> between x 0 v -> between x 0 (r * v).
Proof.
  unfold between, Rmin, Rmax. intros Hr (A & B).
  destruct (Rle_dec x 0) as [L|L]; [|apply Rnot_le_lt in L]; split; nra.
Qed.
Lemma between_self x : between x 0 x.
Proof. unfold between, Rmin, Rmax. destruct (Rle_dec x 0); lra. Qed.
Lemma between_null x : between x 0 0.
Proof. unfold between, Rmin, Rmax. destruct (Rle_dec x 0); lra. Qed.

Lemma bin_descent lex y w p al k n x s u : per_row lex y -> per_row lex w -> per_row lex p -> nonneg w -> 0 <= al -> (k < n)%nat ->
  nth_error (gbs_parameters al lex n y w p) k = Some (Some (x, s)) -> between x 0 u ->
  bin_error lex y w p k u <= bin_error lex y w p k 0 /\
  (bin_error lex y w p k u = bin_error lex y w p k 0 -> u = 0).
Proof.
  intros Ly Lw Lp P Ha Hk E B. rewrite gbs_value in E by auto. injection E as Ex _. rewrite !gbs_error.
  set (Nk := bin_sum lex (fun j => nth j w 0 * (nth j y 0 - nth j p 0)) k) in *. set (W := bin_weight lex w k) in *.
  assert (W0 : 0 <= W) by (apply bin_sum_nonneg; intros; apply nonneg_at; auto).
  assert (D0 : W + 1 <= W * (1 + al) + 1) by nra.
  assert (EN : Nk = x * (W * (1 + al) + 1)) by (rewrite <- Ex; field; lra).
  set (Dn := W * (1 + al) + 1) in *. clearbody Dn Nk W. destruct (between_zero x u B) as (S1 & S2).
  assert (K : - (2 * u * Nk) + u ^ 2 * W <= - (u * x)).
  { rewrite EN. assert (u * u * W <= u * x * W) by (apply Rmult_le_compat_r; auto).
    assert (0 <= u * x * (2 * Dn - W - 1)) by (apply Rmult_le_pos; lra).
    replace (u ^ 2 * W) with (u * u * W) by ring. replace (2 * u * (x * Dn)) with (u * x * (2 * Dn - W - 1) + u * x * W + u * x) by ring. lra. }
  replace (2 * 0 * Nk) with 0 by ring. replace (0 ^ 2 * W) with 0 by ring. split; [lra|]. intro Q.
  assert (u * x = 0) by lra. assert (U : u * u = 0) by nra. apply Rmult_integral in U. tauto.
Qed.

Lemma nth_estimate bad al lex n y w p k : per_row lex y -> per_row lex w -> per_row lex p -> nonneg w -> 0 <= al -> (k < n)%nat ->
  exists s, nth_error (gbs_parameters al lex n y w p) k = Some (Some (nth k (map (estimate_value bad) (gbs_parameters al lex n y w p)) 0, s)) /\
  0 <= s /\ nth k (map (estimate_uncertainty bad) (gbs_parameters al lex n y w p)) 0 = s.
Proof.
  intros Ly Lw Lp P Ha Hk. pose proof (gbs_value lex y w p al k Ly Lw Lp n P Ha Hk) as E. eexists. split; [rewrite E; do 3 f_equal|].
  - symmetry. apply nth_error_nth. rewrite nth_error_map, E. reflexivity.
  - split; [apply sqrt_pos|]. apply nth_error_nth. rewrite nth_error_map, E. reflexivity.
Qed.

Lemma nth_firstn_lt {A} n : forall (l : list A) k d, (k < n)%nat -> nth k (firstn n l) d = nth k l d.
Proof. induction n as [|n IH]; intros [|a l] [|k] d H; cbn; try lia; auto. apply IH. lia. Qed.

Section Gbs.
Variables (gm : R -> R) (bppf : R -> R -> R -> R) (erfinv : R -> R) (bad al : R).
Variables (gs : list group) (cfg : settings) (rate : nat -> nat -> R) (D : list sample).
Hypothesis Ha : 0 <= al.
Hypothesis HB : binned_rows gs D.
Hypothesis HW : Forall (fun s => 0 <= x_w s) D.
Hypothesis HV : visits D <> 0.
Hypothesis HR : forall it i, 0 <= rate it i <= 1.
Hypothesis HS : Forall (fun g => shrinks (g_smoother g)) gs.
Notation y := (map x_y D).
Notation w := (map x_w D).
Notation fl := (bind_groups D 0 gs).
Notation kd := (GBSRegressor al).
Notation calc := (fun i (_ : nat) p => map (estimate_value bad) (group_estimates gm bppf erfinv kd fl y w i p)).
Notation smooth := (fun i (_ : nat) p => group_smoother gm bppf erfinv bad kd gs fl y w i p).
Notation loss := (fun p => kind_loss bad kd y w (p_factors p)).
Notation nf := (new_factors calc smooth (kind_calibration kd fl w) rate).

Lemma w_nonneg : nonneg w.
Proof. intros x I. apply in_map_iff in I. destruct I as (s & <- & I). rewrite Forall_forall in HW. auto. Qed.

Lemma visits_pos : 0 < visits D.
Proof.
  assert (A : 0 <= visits D).
  { clear HV HB. induction D as [|s r IH]; cbn [visits]; [lra|]. inversion HW; subst.
    destruct (Req_EM_T (x_y s) 0); specialize (IH H2); lra. }
  lra.
Qed.

Lemma gbs_loss_value p : length (p_factors p) = length D -> loss p = sumR (row_squares w (p_factors p) y) / visits D.
Proof.
  intro L. unfold kind_loss. cbv zeta. cbn [kind_link]. unfold gbs_loss. cbv zeta. rewrite visits_sum.
  rewrite (proj2 (Reqb_false_iff _ _)) by exact HV. unfold row_squares. do 4 f_equal.
  rewrite map_ext with (g := fun x => x) by reflexivity. rewrite map_id. reflexivity.
Qed.

Lemma bind_groups_nth i0 : forall gs' i f, nth_error (bind_groups D i0 gs') i = Some f ->
  exists g, nth_error gs' i = Some g /\ f = bind_group D (i0 + i) g.
Proof.
  intro gs'. revert i0. induction gs' as [|g gs' IH]; intros i0 [|i] f E; cbn in E; try discriminate.
  - exists g. rewrite Nat.add_0_r. split; [reflexivity|congruence].
  - destruct (IH (S i0) i f E) as (g' & A & B). exists g'. split; [exact A|]. rewrite B. f_equal. lia.
Qed.

Lemma group_facts i f : nth_error fl i = Some f -> f_ext f = false /\ length (f_rows f) = length D /\
  (forall b, In b (f_lex f) -> (b < S (f_finite f))%nat) /\ (exists g, nth_error gs i = Some g /\ shrinks (g_smoother g)).
Proof.
  intro E. destruct (bind_groups_nth 0 gs i f E) as (g & Eg & ->). split; [reflexivity|]. split; [cbn; apply map_length|].
  destruct HB as (B1 & B2 & B3). split.
  - intros b I. apply (f_lex_bound _ b); [exact (B2 g (nth_error_In _ _ Eg))| |exact I].
    intros r Ir. cbn in Ir. apply in_map_iff in Ir. destruct Ir as (s & <- & Is). exact (B1 s i g Is Eg).
  - exists g. split; [exact Eg|]. rewrite Forall_forall in HS. apply HS, (nth_error_In _ _ Eg).
Qed.

Lemma factors_between i f s it p b : nth_error fl i = Some f -> length (p_factors p) = length D -> (b < S (f_finite f))%nat ->
  between (nth b (calc i it p) 0) 0 (nth b (snd (nf i f s it p)) 0).
Proof.
  intros E L Hb. destruct (group_facts i f E) as (_ & LF & _ & g & Eg & Sg).
  pose proof (HR it i) as Hr. unfold new_factors, kind_calibration. cbn [snd]. cbv zeta.
  set (vals := map (estimate_value bad) (group_estimates gm bppf erfinv kd fl y w i p)).
  assert (Pl : per_row (f_lex f) y /\ per_row (f_lex f) w /\ per_row (f_lex f) (p_factors p)).
  { unfold per_row. rewrite !map_length, f_lex_length. lia. } destruct Pl as (Py & Pw & Pp).
  assert (LV : length vals = S (f_finite f)).
  { unfold vals. rewrite map_length. unfold group_estimates. rewrite E. cbn [estimates]. unfold gbs_parameters. rewrite map_length, seq_length. reflexivity. }
  assert (LM : forall (h : nat -> R), length (map h (seq 0 (f_finite f))) = f_finite f) by (intros; rewrite map_length, seq_length; reflexivity).
  destruct (Nat.eq_dec b (f_finite f)) as [->|Nb].
  - rewrite app_nth2 by (rewrite LM; lia). rewrite LM, Nat.sub_diag. cbn [nth].
    destruct (f_mnl f); [apply between_null|]. rewrite Rmult_comm. apply between_scale; [exact Hr|apply between_self].
  - rewrite app_nth1 by (rewrite LM; lia). rewrite (nth_map_lt _ _ b 0%nat) by (rewrite seq_length; lia). rewrite seq_nth by lia. cbn [plus].
    destruct (s_zero s); [rewrite Rmult_0_r; apply between_null|].
    destruct (group_smoother gm bppf erfinv bad kd gs fl y w i p (firstn (f_finite f) vals) b) as [v|] eqn:Es; [|apply between_null].
    apply between_scale; [exact Hr|]. unfold group_smoother in Es. rewrite Eg, E in Es.
    rewrite <- (nth_firstn_lt (f_finite f) vals b 0) by lia. eapply Sg; [| | |exact Es].
    + rewrite !firstn_length, LV, map_length. unfold vals in LV. rewrite map_length in LV. rewrite LV. reflexivity.
    + intros u I. apply (In_nth _ _ 0) in I. destruct I as (j & Hj & <-). rewrite firstn_length in Hj.
      rewrite nth_firstn_lt by lia. unfold group_estimates. rewrite E. cbn [estimates].
      destruct (nth_estimate bad al (f_lex f) (S (f_finite f)) y w (p_factors p) j Py Pw Pp w_nonneg Ha ltac:(lia)) as (s' & _ & S0 & ->). exact S0.
    + rewrite firstn_length, LV. lia.
Qed.

Lemma gbs_gentle : gentle fl calc smooth (kind_calibration kd fl w) rate loss (length D).
Proof.
  intros i f s it p E (L1 & L2). destruct (group_facts i f E) as (EX & LF & LB & _).
  assert (Pl : per_row (f_lex f) y /\ per_row (f_lex f) w /\ per_row (f_lex f) (p_factors p)).
  { unfold per_row. rewrite !map_length, f_lex_length. lia. } destruct Pl as (Py & Pw & Pp).
  unfold moved. rewrite EX. cbn [add_preds p_factors].
  set (c := snd (nf i f s it p)). 
  assert (LC : length (gather c (f_lex f)) = length D) by (rewrite gather_length, f_lex_length; exact LF).
  assert (LM : length (vadd (p_factors p) (gather c (f_lex f))) = length D) by (unfold vadd; rewrite map2_length; lia).
  pose proof (gbs_loss_value {| p_factors := vadd (p_factors p) (gather c (f_lex f)); p_exponents := p_exponents p |} LM) as V1.
  pose proof (gbs_loss_value p L1) as V0. cbn [p_factors] in V1, V0. rewrite V1, V0.
  rewrite (squares_bins (f_lex f) w (p_factors p) y c _ Pw Pp Py LB).
  assert (Z0 : vadd (p_factors p) (gather [] (f_lex f)) = p_factors p).
  { apply vadd_zero; [rewrite gather_length, f_lex_length; lia|]. intros j J. rewrite nth_gather by (rewrite f_lex_length; lia). destruct (nth j (f_lex f) 0%nat); reflexivity. }
  assert (SB : sumR (row_squares w (p_factors p) y) =
    sumR (map (fun k => bin_error (f_lex f) y w (p_factors p) k (nth k [] 0)) (seq 0 (S (f_finite f))))).
  { rewrite <- (squares_bins (f_lex f) w (p_factors p) y [] _ Pw Pp Py LB), Z0. reflexivity. }
  rewrite SB.
  set (A := sumR (map (fun k => bin_error (f_lex f) y w (p_factors p) k (nth k c 0)) (seq 0 (S (f_finite f))))).
  set (B := sumR (map (fun k => bin_error (f_lex f) y w (p_factors p) k (nth k [] 0)) (seq 0 (S (f_finite f))))).
  set (g := fun k => bin_error (f_lex f) y w (p_factors p) k (nth k c 0) + -1 * bin_error (f_lex f) y w (p_factors p) k (nth k [] 0)).
  assert (AB : A - B = sumR (map g (seq 0 (S (f_finite f))))).
  { unfold A, B, g. generalize (seq 0 (S (f_finite f))) as q. induction q as [|a q IH]; cbn [map sumR]; [ring|]. rewrite <- IH. ring. }
  assert (N0 : forall k : nat, nth k (@nil R) 0 = 0) by (intros [|k]; reflexivity).
  assert (G : forall k, In k (seq 0 (S (f_finite f))) -> g k <= 0 /\ (g k = 0 -> nth k c 0 = 0)).
  { intros k I. apply in_seq in I. pose proof (factors_between i f s it p k E L1 ltac:(lia)) as BT. fold c in BT.
    unfold group_estimates in BT. rewrite E in BT. cbn [estimates] in BT.
    destruct (nth_estimate bad al (f_lex f) (S (f_finite f)) y w (p_factors p) k Py Pw Pp w_nonneg Ha ltac:(lia)) as (u & EU & _).
    destruct (bin_descent (f_lex f) y w (p_factors p) al k (S (f_finite f)) _ u (nth k c 0) Py Pw Pp w_nonneg Ha ltac:(lia) EU BT) as (D1 & D2).
    unfold g. rewrite N0. split; [lra|]. intro Q. apply D2. lra. }
  destruct (sum_nonpos g _ (fun k I => proj1 (G k I))) as (S1 & S2). pose proof visits_pos as VP. split.
  - apply Rmult_le_compat_r; [left; apply Rinv_0_lt_compat; exact VP|]. lra.
  - intro Q. assert (QE : A = B) by (apply (Rmult_eq_reg_r (/ visits D)); [exact Q|apply Rinv_neq_0_compat; lra]).
    apply vadd_zero; [lia|]. intros j J. rewrite nth_gather by (rewrite f_lex_length; lia).
    assert (I : In (nth j (f_lex f) 0%nat) (seq 0 (S (f_finite f)))).
    { apply in_seq. split; [lia|]. apply LB, nth_In. rewrite f_lex_length. lia. }
    apply (proj2 (G _ I)), S2; [lra|exact I].
Qed.

Hypothesis Hlog : c_log cfg = false.
Hypothesis Hagg : c_aggregate cfg = true.
Notation start scale := {| p_factors := repeat scale (length D); p_exponents := zeros (length D) |}.

Lemma start_shaped scale : well_shaped (length D) fl (start scale) /\ plen (length D) (start scale).
Proof.
  assert (L : plen (length D) (start scale)) by (split; cbn; [apply repeat_length|apply zeros_length]).
  split; [|exact L]. exact (proj1 (bind_shaped D gs (start scale) HB (proj1 L) (proj2 L))).
Qed.
Lemma start_loss scale : 0 <= loss (start scale).
Proof.
  pose proof (gbs_loss_value (start scale) (repeat_length _ _)) as V. cbv beta in V |- *. rewrite V. apply Rmult_le_pos; [|left; apply Rinv_0_lt_compat, visits_pos].
  apply sumR_nonneg_list. intros v I. unfold row_squares in I. cbn [p_factors] in I. revert I. clear - HW.
  induction D as [|s r IH]; cbn [length repeat map map2]; [intros []|]. inversion HW; subst. intros [<-|I]; [|exact (IH H2 I)].
  apply Rmult_le_pos; [exact H1|apply pow2_ge_0].
Qed.

Lemma recorded_down fuel scale : never_rises (recorded_losses gm bppf erfinv bad kd gs cfg rate fuel D scale).
Proof.
  destruct (start_shaped scale) as (W & L). unfold recorded_losses.
  exact (observed_down cfg fl calc smooth _ rate loss (start scale) (length D) W Hlog Hagg gbs_gentle fuel L (start_loss scale)).
Qed.

Lemma train_down fuel scale r : train gm bppf erfinv bad kd false gs cfg rate fuel D scale 0 = Some r ->
  r = Raise TypeError \/ exists st, r = Ok st /\ t_loss st <= loss (start scale) /\
    (t_loss st = loss (start scale) -> p_factors (t_preds st) = repeat scale (length D)).
Proof.
  intro E. destruct (start_shaped scale) as (W & L). unfold train in E. cbv zeta in E. unfold fit_main in E. cbn [linked_column prior_predictions] in E.
  destruct (loop_down cfg fl calc smooth _ rate loss (start scale) (length D) W Hlog Hagg gbs_gentle _ (start_loss scale) fuel _ r
    (good_init fl loss (start scale) (length D) L) E) as [?|(st & ? & _ & A & B)]; [left; auto|right; exists st; auto].
Qed.

Lemma whole_down fuel :
  whole_fit gm bppf erfinv bad kd false gs cfg rate fuel D <> Failed ConvergenceError /\
  forall t, whole_fit gm bppf erfinv bad kd false gs cfg rate fuel D = Trained t ->
    mean_deviation kd D (whole_predict kd false t D) <= mean_deviation kd D (repeat (o_scale t) (length D)) /\
    (mean_deviation kd D (whole_predict kd false t D) = mean_deviation kd D (repeat (o_scale t) (length D)) ->
     whole_predict kd false t D = repeat (o_scale t) (length D)).
Proof.
  split.
  - unfold whole_fit. destruct (kind_scale _ _ _) as [scale|]; [|discriminate]. cbv zeta. cbn [kind_offset].
    destruct (train gm bppf erfinv bad kd false gs cfg rate fuel D scale 0) as [r|] eqn:E; [|discriminate].
    destruct (train_down fuel scale r E) as [->|(st & -> & _)]; discriminate.
  - intros t F. destruct (whole_insample gm bppf erfinv bad kd false gs cfg rate fuel D t Hagg HB F) as (LP & LO). specialize (LO HV).
    rewrite <- LO. unfold whole_fit in F. destruct (kind_scale _ _ _) as [scale|]; [|discriminate]. cbv zeta in F. cbn [kind_offset] in F.
    destruct (train gm bppf erfinv bad kd false gs cfg rate fuel D scale 0) as [[st|e]|] eqn:E; try discriminate. injection F as <-. cbn [o_loss o_scale].
    destruct (train_down fuel scale _ E) as [?|(st' & Q & A & B)]; [discriminate|]. injection Q as <-.
    assert (ML : mean_deviation kd D (repeat scale (length D)) = loss (start scale)).
    { pose proof (gbs_loss_value (start scale) (repeat_length _ _)) as V. cbv beta in V |- *. rewrite V. cbn [p_factors]. unfold mean_deviation, row_squares. rewrite gbs_squares by apply repeat_length. reflexivity. }
    rewrite ML. split; [exact A|]. intro EQ. specialize (B EQ).
    destruct (start_shaped scale) as (W & L). destruct (bind_shaped D gs (start scale) HB (proj1 L) (proj2 L)) as (_ & Hd & Hwh).
    unfold train in E. cbv zeta in E. cbn [linked_column prior_predictions] in E.
    pose proof (insample_all cfg fl calc smooth (kind_calibration kd fl w) rate loss (start scale) (length D) W (loop_per_bin gm bppf erfinv bad kd _ _ _) fuel st E Hagg Hd (fun f Hf _ => Hwh f Hf)) as IA.
    rewrite (same_rows x_bins D fl (bind_rows D gs)), trained_store in IA by (unfold trained_model; rewrite map_length, combine_length; lia).
    unfold whole_predict. cbn [o_scale o_offset o_groups]. unfold cb_predict. cbn [linked_column prior_predictions]. rewrite map_length.
    rewrite IA, B. rewrite map_ext with (g := fun x => x) by reflexivity. apply map_id.
Qed.
End Gbs.

(** ** Smoothers *)
Lemma values_shrink : shrinks bin_values.
Proof. intros c w u v b x L P B E. unfold bin_values in E. rewrite (nth_error_nth _ _ 0 E). apply between_self. Qed.

Lemma classic_zero u : (forall v, In v u -> 0 <= v) -> In 0 u \/ (forall v, In v u -> 0 < v).
Proof.
  induction u as [|a u IH]; intro P; [right; intros v []|].
  destruct IH as [I|H]; [intros; apply P; right; auto|left; right; exact I|].
  destruct (Req_EM_T a 0) as [->|N]; [left; left; reflexivity|right]. intros v [<-|I]; [pose proof (P a (or_introl eq_refl)); lra|auto].
Qed.
Lemma mean_shrinks : shrinks (weighted_mean_bins (Some 0)).
Proof.
  intros c w u v b x L P B E. unfold weighted_mean_bins in E.
  destruct (classic_zero u P) as [Z|Z].
  - destruct (nearly_all_dec v 0) as [Y|Y].
    + rewrite (mean_unchanged v u (Some 0) (eq_sym L) Y) in E. rewrite (nth_map_lt _ _ b 0) in E by exact B. injection E as <-. apply between_self.
    + rewrite (mean_zero_uncertainty v u (Some 0) (eq_sym L) Z Y) in E. rewrite (nth_map_lt _ _ b 0) in E by exact B. discriminate.
  - destruct (mean_shrinkage v u (Some 0) (eq_sym L) Z) as (r & Er & Lr & Hr & _). rewrite Er in E.
    rewrite (nth_map_lt _ _ b 0) in E by lia. injection E as <-. exact (Hr b B).
Qed.
Lemma cut_shrinks s : shrinks s -> shrinks (cut_unseen s).
Proof. intros H c w u v b x L P B E. unfold cut_unseen in E. destruct (Reqb (nth b w 0) 0); [discriminate|]. exact (H c w u v b x L P B E). Qed.
Lemma normalised_values_shrink : shrinks (normalised bin_values).
Proof.
  intros c w u v b x L P B E. unfold normalised, bin_values in E. rewrite nth_error_map, (nth_error_nth' _ 0 B) in E. cbn in E. injection E as <-.
  replace (nth b v 0 - bins_norm w v + bins_norm w v) with (nth b v 0) by ring. apply between_self.
Qed.
Lemma expectation_shrinks t : 0 <= t -> shrinks (prior_expectation_bins 0 t).
Proof.
  intros T c w u v b x L P B E. unfold prior_expectation_bins in E.
  assert (E' : regularize_to_prior_expectation (nth b v 0) (nth b u 0) 0 t = Some x).
  { revert u v L B E P. induction b as [|b IH]; intros [|a u] [|h v] L B E P; cbn in *; try lia; auto.
    apply IH; [lia|lia|exact E|intros; apply P; right; auto]. }
  clear E. assert (U : 0 <= nth b u 0) by (apply P, nth_In; lia). destruct (Req_EM_T (nth b u 0) 0) as [Z|Z].
  - unfold regularize_to_prior_expectation in E'. rewrite (proj2 (Reqb_iff _ _) Z) in E'. destruct (Reqb (nth b v 0) 0); [|discriminate].
    injection E' as <-. apply between_null.
  - destruct (Rle_lt_dec (Rabs (nth b v 0 - 0)) (t * nth b u 0)) as [I|I].
    + rewrite prior_insignificant in E' by (lra || exact I). injection E' as <-. apply between_null.
    + destruct (prior_significant (nth b v 0) (nth b u 0) 0 t ltac:(lra) T I) as (r & Er & _ & A1 & A2 & _). rewrite Er in E'. injection E' as <-.
      unfold between, Rmin, Rmax. destruct (Rle_dec (nth b v 0) 0) as [K|K].
      * destruct (Req_EM_T (nth b v 0) 0) as [K0|K0]; [|specialize (A2 ltac:(lra)); lra].
        rewrite K0, Rminus_0_r, Rabs_R0 in I. assert (0 <= t * nth b u 0) by (apply Rmult_le_pos; lra). lra.
      * specialize (A1 ltac:(lra)). lra.
Qed.
