(** A pipeline on two rows with a column that is declared decreasing, and C106 without
    the internal order of directions. *)
From Coq Require Import ZArith NArith QArith Qreals List Bool Reals String Lia Lra.
From Verif.Proofs Require Import FlagFacts TrainFacts TrainExamples LinkFacts WholeExamples FrameFacts RefitFacts RefitExamples IsotonicFacts IsotonicRuns PipeExamples PipeMonotone.
From Verif.Model Require Import Num BinarySearch Flags Ecdf BinTransform Frames LexBins Train Predict Link Estimators Gbs WholeFit Refit
  SmootherChoice MetaSmoothers Isotonic Pipe.
From Verif.Spec Require Import SearchSpec BinningSpec FrameSpec RefitSpec PipeSpec PredictSpec IsotonicSpec MonotoneSpec.
Import ListNotations.
Local Open Scope R_scope.

(** IS_MONOTONIC | DECREASING *)
Definition falls : N := N.lor IS_MONOTONIC DECREASING.
Definition falls_a : option (label -> option N) := Some (fun c => if label_eqb c c_a then Some falls else None).
Definition iso_other (_ : smoother) : smoothing_alg := isotonic AutoDirection.
Definition iso : smoother := Cut (Isotonic DecreasingOnly) Interpolating.
Definition iso_smoother (centres : list (list Z)) (w u values : list R) (k : nat) : option R :=
  let a := smoother_alg iso_other iso in
  nth k (predict a (fit a (smoother_rows (List.length u) [] u) values) (map bin_row (seq 0 (List.length u)))) None.
Definition m_style (g : list label) : group := {| g_dim := List.length g; g_hier := false; g_mnl := false; g_smoother := iso_smoother |}.

Lemma pool_rising w v a b : a < b -> pool [w; v] [a; b] = [a; b].
Proof. intro H. unfold pool. cbn [combine fold_left fst snd push]. rewrite (proj2 (TrainExamples.Rleb_false b a)) by lra. reflexivity. Qed.
Lemma iso_keeps c w u0 u1 a b k : b < a -> iso_smoother c w [u0; u1] [a; b] k = nth k [Some a; Some b] None.
Proof.
  intro H. unfold iso_smoother, iso. cbv zeta. cbn [smoother_alg List.length].
  rewrite (isotonic_bins DecreasingOnly 2 [] [u0; u1] [a; b] eq_refl). f_equal.
  change (direction_bool DecreasingOnly (smoother_rows 2 [] [u0; u1]) [a; b]) with false.
  unfold isotonic_values, inverse_variances, smoother_rows. cbn [seq map rev app].
  rewrite pool_rising by exact H. reflexivity.
Qed.

Lemma falls_ok : declares falls_a c_a falls /\ is_continuous_set falls = true /\ has_magic_missing_set falls = false /\
  monotonic_decreasing falls /\ choice_fct ChoiceGroupBy true false (fun _ : list label => None) [c_a] [falls] = Some iso /\
  fitted_by (smoother_alg iso_other iso) (m_style [c_a]).
Proof.
  split; [reflexivity|]. split; [reflexivity|]. split; [reflexivity|]. split; [repeat split|]. split; [reflexivity|].
  exists (fun _ => []). intros. reflexivity.
Qed.

Section Runs.
Variables (gm : R -> R) (bppf : R -> R -> R -> R) (erfinv : R -> R) (bad : R).

Lemma m_factors gs fl i f p (HF : nth_error fl i = Some f) (HG : nth_error gs i = Some (m_style [c_a])) a : a < 1 ->
  f_lex f = [0; 1]%nat -> f_finite f = 2%nat -> f_mnl f = false -> p_factors p = [a; - a] ->
  snd (new_factors (fun i (_ : nat) p => map (estimate_value bad) (group_estimates gm bppf erfinv g_kind fl [1; -1] [1; 1] i p))
    (fun i (_ : nat) p => group_smoother gm bppf erfinv bad g_kind gs fl [1; -1] [1; 1] i p)
    (kind_calibration g_kind fl [1; 1]) ex_rate i f (init_fstate f) 0 p) = [(1 - a) / 2; - ((1 - a) / 2); 0].
Proof.
  intros A L F M P. unfold new_factors. cbv zeta. cbn [snd]. unfold group_smoother, group_estimates. rewrite HF, HG, L, F, M, P.
  cbn [estimates g_kind]. rewrite (g_estimates bad). change (firstn 2 [(1 - a) / 2; - ((1 - a) / 2); 0]) with [(1 - a) / 2; - ((1 - a) / 2)].
  cbn [s_zero init_fstate m_style g_smoother]. change (seq 0 2) with [0; 1]%nat. cbn [map].
  match goal with |- context [iso_smoother ?c ?w (firstn 2 ?u) _ _] => assert (U : exists u0 u1, firstn 2 u = [u0; u1]) end.
  { unfold gbs_parameters. cbn [seq map firstn]. eauto. }
  destruct U as (u0 & u1 & U). rewrite U. rewrite !iso_keeps by lra. cbn [nth app kind_calibration].
  unfold ex_rate. rewrite !Rmult_1_l, Rmult_1_r. reflexivity.
Qed.
Lemma iso_run : whole_fit gm bppf erfinv bad g_kind false [m_style [c_a]] w_cfg ex_rate 1 d_one = Trained r_one.
Proof.
  assert (L : f_lex (bind_group d_one 0 (m_style [c_a])) = [0; 1]%nat) by reflexivity.
  assert (F : f_finite (bind_group d_one 0 (m_style [c_a])) = 2%nat) by reflexivity.
  erewrite (one_pass gm bppf erfinv bad g_kind false _ ex_rate d_one 0 0 [1/2; -(1/2); 0]
    {| p_factors := [0; 0]; p_exponents := zeros 2 |} [1/2; -(1/2)]).
  - unfold r_one. f_equal. f_equal. change (map x_y d_one) with [1; -1]. change (map x_w d_one) with [1; 1]. rewrite g_loss. field.
  - exact g_scale.
  - reflexivity.
  - reflexivity.
  - change (map x_y d_one) with [1; -1]. change (map x_w d_one) with [1; 1].
    rewrite (m_factors [m_style [c_a]] [bind_group d_one 0 (m_style [c_a])] 0 _ _ eq_refl eq_refl 0 ltac:(lra) L F eq_refl) by (cbn [p_factors]; rewrite Ropp_0; reflexivity). repeat (f_equal; try lra).
  - rewrite L. cbn. repeat (f_equal; try lra).
  - change (map x_y d_one) with [1; -1]. change (map x_w d_one) with [1; 1]. cbn [p_factors]. rewrite g_loss. 
    replace [0; 0] with [0; - 0] by (rewrite Ropp_0; reflexivity). rewrite g_loss. lra.
Qed.

Notation run := (pipe_fit gm bppf erfinv bad g_kind (Some c_w) None w_cfg ex_rate r_all m_style 1).
Definition learned_falls : list (label * fit_result) := [(c_a, fit_column falls 2 (1 # 1000000000) (1 # 10) [(Fin 10, 1%Q); (Fin 20, 1%Q)])].
Definition binner_falls : binner := with_fitted (pipeline_binner two_bins falls_a false) learned_falls.
Lemma falls_fitted : bin_fit (pipeline_binner two_bins falls_a false) (raw one_one) = FOk binner_falls.
Proof. vm_compute. reflexivity. Qed.
Lemma falls_binned : fst (bin_transform binner_falls (raw one_one)) = FOk binned.
Proof. vm_compute. reflexivity. Qed.

Lemma falls_runs : exists P1, run (pipe falls_a) (raw one_one) [1; -1] = (None, P1) /\
  pipe_predict g_kind (Some c_w) None P1 (raw one_one) = Some [1 / 2; - (1 / 2)].
Proof.
  set (d := {| d_cols := feature_columns (Some c_w) None binned; d_targets := [r_target 1; r_target (-1)] |}).
  pose proof iso_run as H. unfold d_one in H. change [m_style [c_a]] with (map m_style [[c_a]]) in H.
  pose proof (fit_is_whole gm bppf erfinv bad g_kind false w_cfg ex_rate r_all m_style no_prior 1 (fresh [[c_a]]) [[c_a]] d [[both]] eq_refl eq_refl eq_refl) as E.
  cbn [d_targets d] in E. rewrite H in E. destruct E as [E _].
  pose proof (fun X rows => predict_is_whole gm bppf erfinv bad g_kind false w_cfg ex_rate r_all m_style no_prior 1 (fresh [[c_a]]) [[c_a]] d [[both]] r_one X rows eq_refl eq_refl eq_refl H) as P.
  fold d in E.
  destruct (fit_object gm bppf erfinv bad g_kind false w_cfg ex_rate r_all m_style 1 (fresh [[c_a]]) d) as [e o] eqn:F. cbn [fst snd] in E, P. subst e.
  exists {| l_binner := binner_falls; l_object := o |}. split.
  - unfold pipe_fit. cbn [l_binner l_object pipe]. rewrite falls_fitted. cbv zeta. rewrite falls_binned, binned_targets. cbn [has_prior]. fold d. rewrite F. reflexivity.
  - unfold pipe_predict. cbn [l_binner l_object]. rewrite falls_binned. cbn [predict_targets read_priors fr_index binned map has_prior].
    match goal with |- predict_frame _ _ _ ?X = _ => rewrite (P X [[both]] eq_refl) end. cbn [d_targets].
    apply f_equal. cbn. change (Pos.to_nat 1) with 1%nat. cbn. f_equal; [|f_equal]; field.
Qed.
End Runs.

Lemma falls_grows : grows_in c_a (raw one_one) 0 (raw one_one) 1.
Proof.
  intros d x x' [E|[E|[]]] [E'|[E'|[]]]; injection E as <- <-; first [discriminate E'|injection E' as <-]; cbn [nth one_one]; split; intro H; try discriminate H.
  - exists 10%Q, 20%Q. repeat split. discriminate.
  - exfalso. apply H. reflexivity.
  - reflexivity.
Qed.
Lemma falls_other : finite_column (raw one_one) c_a /\ in_no_interaction c_a (fresh [[c_a]]).
Proof.
  split.
  - intros t v [E|[E|[]]] I; [injection E as <-|discriminate E]. left. destruct I as [<-|[<-|[]]]; reflexivity.
  - intros gl g E I H. injection E as <-. destruct I as [<-|[]]. reflexivity.
Qed.

(** ** Both directions *)
Lemma pipe_monotone gamma_median beta_ppf erfinv bad k weight prior cfg rate accepted style bins props inplace c p cc ut un explicit other s :
  declares props c p -> is_continuous_set p = true -> has_magic_missing_set p = false -> (2 <= bins c <= 100000000)%Z ->
  (forall g, g_dim (style g) = List.length g) ->
  cc <> ChoiceNone -> explicit [c] = None -> choice_fct cc ut un explicit [c] [p] = Some s ->
  fitted_by (smoother_alg other s) (style [c]) -> (forall it m, 0 <= rate it m) -> prior <> Some c ->
  forall fuel o T y P1, table T -> finite_column T c -> List.length y = List.length (fr_index T) -> in_no_interaction c o ->
  pipe_fit gamma_median beta_ppf erfinv bad k weight prior cfg rate accepted style fuel
    {| l_binner := pipeline_binner bins props inplace; l_object := o |} T y = (None, P1) ->
  (c_log cfg && c_aggregate cfg = false \/ b_diverging (l_object P1) = 0%nat) ->
  forall Y r Y' r' i j, table Y -> table Y' ->
  pipe_predict k weight prior P1 Y = Some r -> pipe_predict k weight prior P1 Y' = Some r' ->
  (i < List.length (fr_index Y))%nat -> (j < List.length (fr_index Y'))%nat -> grows_in c Y i Y' j ->
  (monotonic_increasing p -> nth i r 0 <= nth j r' 0) /\ (monotonic_decreasing p -> nth j r' 0 <= nth i r 0).
Proof.
  intros A1 A2 A3 A4 A5 A6 A7 A8 A9 A10 A11 fuel o T y P1 B1 B2 B3 B4 B5 B6 Y r Y' r' i j C1 C2 C3 C4 C5 C6 C7. split; intro M.
  - exact (pipe_order gamma_median beta_ppf erfinv bad k weight prior cfg rate accepted style bins props inplace c p cc ut un explicit other s
      A1 A2 A3 A4 A5 A6 A7 A8 A9 A10 A11 fuel o T y P1 true (proj1 M) (or_introl (conj M eq_refl)) B1 B2 B3 B4 B5 B6 Y r Y' r' i j C1 C2 C3 C4 C5 C6 C7).
  - exact (pipe_order gamma_median beta_ppf erfinv bad k weight prior cfg rate accepted style bins props inplace c p cc ut un explicit other s
      A1 A2 A3 A4 A5 A6 A7 A8 A9 A10 A11 fuel o T y P1 false (proj1 M) (or_intror (conj M eq_refl)) B1 B2 B3 B4 B5 B6 Y r Y' r' i j C1 C2 C3 C4 C5 C6 C7).
Qed.
