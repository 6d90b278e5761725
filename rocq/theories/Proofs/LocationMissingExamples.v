(** A row with a value and one without, whose targets differ. *)
From Coq Require Import ZArith QArith Qround List Bool Reals Lra Lia.
From Verif.Model Require Import Num LexBins Train Predict Link Estimators WholeFit Regularize BinSmoothers.
From Verif.Spec Require Import DataSpec LexSpec PredictSpec RegularizeSpec InsampleSpec CellSpec LocationCellSpec.
From Verif.Proofs Require Import TrainFacts LinkFacts LexFacts TrainExamples WholeExamples MetaExamples InsampleFacts DescentFacts DescentExamples CellFacts CellExamples LocationCell LocationCellExamples LocationMissing.
Import ListNotations.
Local Open Scope R_scope.

Definition lm_group : group := {| g_dim := 1; g_hier := false; g_mnl := true; g_smoother := bin_values |}.
Definition lm_gap : sample := {| x_bins := fun _ => [NaN]; x_prior := None; x_y := 100; x_w := 1 |}.
Definition lm_data : list sample := [w_row 0 0 1; lm_gap].
Definition lm_complete (s : sample) : bool := match x_bins s 0%nat with [Fin _] => true | _ => false end.

Section Run.
Variables (gm : R -> R) (bppf : R -> R -> R -> R) (erfinv : R -> R) (bad : R) (cfg : settings) (rate : nat -> nat -> R).
Hypothesis Hlog : c_log cfg = false.
Hypothesis Hagg : c_aggregate cfg = true.
Hypothesis Hh : c_hier cfg = false.
Hypothesis H1 : c_minfactor cfg < 0.
Hypothesis H2 : c_minloss cfg < 0.
Hypothesis H3 : c_maxiter cfg <> 0%nat.
Notation D := lm_data.
Notation y := (map x_y D).
Notation w := (map x_w D).
Notation f := (bind_group D 0 lm_group).
Notation kd := LocationRegressor.
Notation calc := (fun i (_ : nat) p => map (estimate_value bad) (group_estimates gm bppf erfinv kd [f] y w i p)).
Notation smooth := (fun i (_ : nat) p => group_smoother gm bppf erfinv bad kd [lm_group] [f] y w i p).
Notation loss := (fun p => kind_loss bad kd y w (p_factors p)).
Notation nf := (new_factors calc smooth (kind_calibration kd [f] w) rate).

Lemma lm_lex : f_lex f = [0; 1]%nat.
Proof. reflexivity. Qed.
Lemma lm_finite : f_finite f = 1%nat.
Proof. reflexivity. Qed.

Lemma lm_factors s it p : snd (nf 0%nat f s it p) = [0; 0].
Proof.
  unfold new_factors. cbn [snd]. cbv zeta. rewrite lm_finite. cbn [seq map app]. change (f_mnl f) with true. cbv iota.
  match goal with |- kind_calibration _ _ _ _ (?a :: _) = _ => set (x := a); clearbody x end.
  unfold kind_calibration, location_calibration. cbn [nth_error]. rewrite lm_lex, lm_finite. change (f_mnl f) with true.
  unfold calibrate. cbn [removelast bincounts seq map]. unfold centred. cbn. f_equal. field.
Qed.

Notation start := {| p_factors := repeat (50 + 1 / 1000) 2; p_exponents := zeros 2 |}.
Definition lm_reached (st : state) : Prop :=
  t_preds st = start /\ (exists s, t_feats st = [s] /\ (t_iter st <> 0%nat -> s_agg s <> None)) /\ 0 <= t_delta st /\ t_isdiv st = false /\ t_loss st = loss start.

Lemma lm_not_diverged : is_diverged (loss start) (loss start) = false.
Proof.
  unfold is_diverged. apply Rltb_false. cbn. unfold squared_loss. cbn. lra.
Qed.

Lemma lm_next st : lm_reached st -> exists st',
  iteration cfg [f] calc smooth (kind_calibration kd [f] w) rate loss (loss start) st = Ok st' /\ lm_reached st' /\ t_iter st' = S (t_iter st).
Proof.
  intros (P & (s & Es & _) & DE & ND & _). unfold iteration. rewrite Es. cbn [features_pass].
  rewrite (not_skipped lm_group cfg D (or_introl Hh)).
  unfold feature_iteration. rewrite Hagg. cbv zeta.
  pose proof (lm_factors s (t_iter st) (t_preds st)) as FS.
  destruct (nf 0%nat f s (t_iter st) (t_preds st)) as [un fs] eqn:EQ. cbn [snd] in FS. subst fs.
  unfold visit_factors, limit_factors. rewrite Hlog. cbn [andb s_factors].
  assert (EP : add_preds (f_ext f) (t_preds st) (gather [0; 0] (f_lex f)) = start).
  { rewrite P, lm_lex. cbn. f_equal. f_equal; [ring|]. f_equal. ring. }
  rewrite EP. pose proof lm_not_diverged as DV. cbv beta in DV |- *. rewrite DV. cbn [andb].
  eexists. split; [reflexivity|]. split; [|reflexivity]. split; [reflexivity|].
  split; [|split; [apply deviation_nonneg|split; reflexivity]].
  eexists. split; [reflexivity|]. intros _. discriminate.
Qed.

Lemma lm_passes : forall fuel st, lm_reached st -> (t_iter st + fuel = c_maxiter cfg)%nat ->
  exists st', loop cfg [f] calc smooth (kind_calibration kd [f] w) rate loss fuel (loss start) st = Some (Ok st') /\ t_iter st' = c_maxiter cfg.
Proof.
  induction fuel as [|fuel IH]; intros st RE N.
  - pose proof RE as (P & (s & Es & SA) & DE & ND & LO). rewrite Nat.add_0_r in N.
    assert (CT : continues cfg st = false).
    { unfold continues, check_stop, stop_iterations, veto_hierarchical. rewrite ND, Hh, N, Nat.leb_refl, andb_false_r. reflexivity. }
    exists st. split; [|exact N]. cbn [loop]. rewrite CT. unfold finish. rewrite Es. cbn [forallb].
    destruct (s_agg s) as [a|]; [|exfalso; apply SA; congruence]. cbn [andb].
    pose proof lm_not_diverged as IV. cbv beta in IV, LO |- *. rewrite LO, IV. reflexivity.
  - pose proof RE as (_ & _ & DE & ND & _).
    assert (CT : continues cfg st = true).
    { unfold continues, check_stop, stop_iterations, stop_factor_change, stop_loss_change.
      rewrite (proj2 (Nat.leb_gt _ _)) by lia. rewrite (proj2 (Rleb_false _ _)) by lra.
      rewrite (proj2 (Rleb_false _ _)) by (pose proof (Rabs_pos (t_losschange st)); lra). reflexivity. }
    destruct (lm_next st RE) as (s1 & E1 & R1 & N1). cbn [loop]. rewrite CT, E1. apply IH; [exact R1|lia].
Qed.

Lemma lm_run : exists t, whole_fit gm bppf erfinv bad kd false [lm_group] cfg rate (c_maxiter cfg) D = Trained t /\ o_iterations t = c_maxiter cfg /\ o_scale t = 50 + 1 / 1000.
Proof.
  destruct (lm_passes (c_maxiter cfg) (init_state [f] loss start)) as (st & Lo & N).
  { split; [reflexivity|]. split; [exists (init_fstate f); split; [reflexivity|intro X; contradiction]|]. split; [cbn; lra|]. split; reflexivity. }
  { reflexivity. }
  assert (SC : kind_scale kd y w = Some (50 + 1 / 1000)).
  { cbn [kind_scale kind_link]. unfold global_scale, weighted_mean. cbn [lm_data lm_gap map w_row x_y x_w sumR map2].
    rewrite (proj2 (Reqb_false_iff _ _)) by lra. cbn [link_func]. f_equal. field. }
  unfold whole_fit. rewrite SC. cbv zeta. unfold train. cbv zeta. unfold fit_main. cbn [linked_column prior_predictions bind_groups].
  change (length D) with 2%nat. cbv beta in Lo |- *. rewrite Lo. eexists. split; [reflexivity|]. split; [exact N|reflexivity].
Qed.
End Run.

Lemma lm_binned : binned_rows [lm_group] lm_data.
Proof.
  split; [|split].
  - intros r [|i] g I G; cbn in G; [|destruct i; discriminate]. injection G as <-.
    repeat (destruct I as [<-|I]; [reflexivity|]). destruct I.
  - intros g [<-|[]]. cbn. lia.
  - intros r i x [<-|[<-|[]]] X.
    + destruct lc_binned as (_ & _ & C). exact (C (w_row 0 0 1) i x (or_introl eq_refl) X).
    + cbn in X. destruct X as [<-|[]]. intro X. discriminate X.
Qed.
Lemma lm_weights : Forall (fun s => 0 < x_w s) lm_data.
Proof. repeat constructor; cbn; lra. Qed.
Lemma lm_missing : missing_entry (x_bins lm_gap 0%nat).
Proof. apply semi_positive_iff. reflexivity. Qed.
Lemma lm_value : ~ missing_entry (x_bins (w_row 0 0 1) 0%nat).
Proof. exact (not_missing_w 0%Z ltac:(lia)). Qed.
Lemma lm_completes s : In s lm_data -> lm_complete s = true <-> ~ missing_entry (x_bins s 0%nat).
Proof.
  intros [<-|[<-|[]]].
  - split; [intros _; exact lm_value|reflexivity].
  - split; [discriminate|]. intro N. exfalso. exact (N lm_missing).
Qed.
Lemma lm_cell : cell_of lm_data (w_row 0 0 1) lm_complete.
Proof.
  intros s [<-|[<-|[]]].
  - split; [|reflexivity]. intros _. left. exists [0%Z]. split; apply holds_w; reflexivity.
  - split; [discriminate|]. intros [(t & _ & H)|(M & _)]; [|exfalso; exact (lm_value M)].
    exfalso. cbn in H. inversion H as [|? ? ? ? (q & E & _) _]. discriminate.
Qed.

Theorem location_missing_refuted : forall gm bppf erfinv bad, exists g D s cell,
  binned_rows [g] D /\ Forall (fun s => 0 < x_w s) D /\ g_smoother g = bin_values /\ g_mnl g = true /\
  nth_error D 0 = Some s /\ ~ missing_entry (x_bins s 0%nat) /\ cell_of D s cell /\ mean_of_cell cell D = 0 /\
  forall cfg rate, c_log cfg = false -> c_aggregate cfg = true -> c_hier cfg = false ->
    c_minfactor cfg < 0 -> c_minloss cfg < 0 -> c_maxiter cfg <> 0%nat ->
    exists t, whole_fit gm bppf erfinv bad LocationRegressor false [g] cfg rate (c_maxiter cfg) D = Trained t /\
      o_iterations t = c_maxiter cfg /\ nth_error (whole_predict LocationRegressor false t D) 0 = Some (50 + 1 / 1000).
Proof.
  intros gm bppf erfinv bad. exists lm_group, lm_data, (w_row 0 0 1), lm_complete.
  split; [exact lm_binned|]. split; [exact lm_weights|]. split; [reflexivity|]. split; [reflexivity|]. split; [reflexivity|].
  split; [exact lm_value|]. split; [exact lm_cell|]. split.
  { unfold mean_of_cell, cell_weight, lm_data. cbn. field. }
  intros cfg rate Hl Ha Hh H1 H2 H3. destruct (lm_run gm bppf erfinv bad cfg rate Hl Ha Hh H1 H2 H3) as (t & F & N & S).
  exists t. split; [exact F|]. split; [exact N|].
  destruct (missing_keeps gm bppf erfinv bad lm_group cfg rate lm_data lm_binned lm_weights eq_refl Hl Ha lm_complete lm_completes
    (ex_intro _ _ (conj (or_introl eq_refl) eq_refl)) _ t F) as (L & _ & X). rewrite S in X.
  destruct (whole_predict LocationRegressor false t lm_data) as [|p [|q [|]]]; try discriminate.
  unfold cell_weight, lm_data in X. cbn in X |- *. f_equal. lra.
Qed.
