(** The regularisation parameter of the background subtraction regressor. *)
From Coq Require Import ZArith QArith Qround List Bool Reals Lra Lia.
From Verif.Model Require Import Num LexBins Train Predict Link Estimators Gbs WholeFit Regularize BinSmoothers.
From Verif.Spec Require Import DataSpec LexSpec PredictSpec RegularizeSpec InsampleSpec DescentSpec CellSpec.
From Verif.Proofs Require Import TrainFacts LinkFacts LexFacts TrainExamples WholeExamples MetaExamples InsampleFacts DescentFacts DescentExamples CellFacts.
Import ListNotations.
Local Open Scope R_scope.

Definition first_cell (s : sample) : bool :=
  match x_bins s 0%nat with Fin q :: _ => Qeq_bool q 0 | _ => false end.

Lemma holds_w q k : holds_tuple [Fin (inject_Z q)] [k] <-> q = k.
Proof. apply holds_one. Qed.
Lemma not_missing_w k : (0 <= k)%Z -> ~ missing_entry [Fin (inject_Z k)].
Proof.
  intros P (x & [<-|[]] & [X|X]); [discriminate|]. cbn in X. apply negb_true_iff in X.
  assert (Y : Qle_bool 0 (inject_Z k) = true) by (apply Qle_bool_iff; change 0%Q with (inject_Z 0); rewrite <- Zle_Qle; exact P). congruence.
Qed.

Lemma noisy_cell : cell_of noisy (w_row 0 101 1) first_cell.
Proof.
  assert (S0 : forall t, holds_tuple [Fin 0] t -> t = [0%Z]).
  { intros t H. inversion H as [|? k ? t' (q & E & Q) H']; subst. inversion H'; subst. injection E as <-. f_equal.
    symmetry. apply inject_Z_injective. exact Q. }
  assert (A : same_cell [Fin 0] [Fin 0]).
  { left. exists [0%Z]. split; apply (holds_w 0 0); reflexivity. }
  assert (B : ~ same_cell [Fin 0] [Fin 1]).
  { intros [(t & H1 & H2)|(M & _)]; [|apply (not_missing_w 0 ltac:(lia)); exact M].
    rewrite (S0 t H1) in H2. apply (holds_w 1 0) in H2. discriminate. }
  intros s' I. unfold first_cell.
  repeat (destruct I as [<-|I]; [cbn [x_bins w_row w_bins]; split; [intro X; try exact A; discriminate|intro X; try reflexivity; contradiction]|]).
  destruct I.
Qed.
Lemma noisy_cell_weight : cell_weight first_cell noisy = 2.
Proof. unfold cell_weight, first_cell, noisy. cbn [cell_sum x_bins w_row w_bins x_w]. cbn. lra. Qed.
Lemma noisy_cell_mean : cell_mean first_cell noisy 1.
Proof. unfold cell_mean. rewrite noisy_cell_weight. unfold first_cell, noisy. cbn [cell_sum x_bins w_row w_bins x_w x_y]. cbn. lra. Qed.

Definition n_cfg (n : nat) : settings :=
  {| c_log := false; c_aggregate := true; c_hier := false; c_thier := 0; c_maxiter := n; c_minfactor := -1; c_minloss := -1 |}.

Theorem regularisation_vanishes : forall gm bppf erfinv bad,
  cell_of noisy (w_row 0 101 1) first_cell /\ cell_mean first_cell noisy 1 /\
  forall regalpha eps, 0 <= regalpha -> 0 < eps -> exists cfg t p,
    c_log cfg = false /\ c_aggregate cfg = true /\
    whole_fit gm bppf erfinv bad (GBSRegressor regalpha) false [plain_group] cfg ex_rate (c_maxiter cfg) noisy = Trained t /\
    o_scale t = 0 /\ nth_error (whole_predict (GBSRegressor regalpha) false t noisy) 0 = Some p /\ Rabs (p - 1) <= eps.
Proof.
  intros gm bppf erfinv bad. split; [exact noisy_cell|]. split; [exact noisy_cell_mean|]. intros al eps Ha He.
  assert (HW : Forall (fun s => 0 <= x_w s) noisy) by (repeat constructor; cbn; lra).
  assert (HV : visits noisy <> 0) by (rewrite noisy_visits; lra).
  assert (R1 : forall it i, 1 <= ex_rate it i <= 1) by (intros; unfold ex_rate; lra).
  assert (R0 : forall it i, 0 <= ex_rate it i <= 1) by (intros; unfold ex_rate; lra).
  destruct (learned_limit gm bppf erfinv bad al plain_group ex_rate noisy Ha plain_binned HW HV eq_refl 1 ltac:(lra) R1
    0%nat (w_row 0 101 1) first_cell 1 eps eq_refl noisy_cell noisy_cell_mean ltac:(rewrite noisy_cell_weight; lra) (or_introl eq_refl) He) as (n & H).
  assert (KS : kind_scale (GBSRegressor al) (map x_y noisy) (map x_w noisy) = Some 0).
  { cbn [kind_scale]. unfold gbs_global_scale. cbn [noisy map w_row x_y x_w sumR map2].
    rewrite (proj2 (Reqb_false_iff _ _)) by lra. f_equal. field. }
  destruct (fit_all_passes gm bppf erfinv bad al plain_group (n_cfg (S n)) ex_rate noisy Ha plain_binned HW HV R0 eq_refl (or_introl eq_refl) eq_refl eq_refl
    eq_refl ltac:(cbn; lra) ltac:(cbn; lra) ltac:(cbn; discriminate) 0 KS) as (t & F & N & SC).
  pose proof (learned_mean gm bppf erfinv bad al plain_group (n_cfg (S n)) ex_rate noisy Ha plain_binned HW HV R0 eq_refl (or_introl eq_refl) eq_refl eq_refl
    _ t 0%nat _ first_cell 1 F eq_refl noisy_cell noisy_cell_mean (or_introl eq_refl)) as P.
  eexists (n_cfg (S n)), t, _. split; [reflexivity|]. split; [reflexivity|]. split; [exact F|]. split; [exact SC|]. split; [exact P|].
  refine (H (n_cfg (S n)) _ t _ (or_introl eq_refl) eq_refl eq_refl F _ P). rewrite N. cbn. lia.
Qed.

(** Two passes: from the baseline 0 towards the mean 1. *)
Lemma two_passes gm bppf erfinv bad : exists t,
  whole_fit gm bppf erfinv bad (GBSRegressor 0) false [plain_group] (n_cfg 2) ex_rate 2 noisy = Trained t /\
  o_iterations t = 2%nat /\ nth_error (whole_predict (GBSRegressor 0) false t noisy) 0 = Some (8 / 9).
Proof.
  assert (HW : Forall (fun s => 0 <= x_w s) noisy) by (repeat constructor; cbn; lra).
  assert (HV : visits noisy <> 0) by (rewrite noisy_visits; lra).
  assert (R0 : forall it i, 0 <= ex_rate it i <= 1) by (intros; unfold ex_rate; lra).
  assert (KS : kind_scale (GBSRegressor 0) (map x_y noisy) (map x_w noisy) = Some 0).
  { cbn [kind_scale]. unfold gbs_global_scale. cbn [noisy map w_row x_y x_w sumR map2].
    rewrite (proj2 (Reqb_false_iff _ _)) by lra. f_equal. field. }
  destruct (fit_all_passes gm bppf erfinv bad 0 plain_group (n_cfg 2) ex_rate noisy ltac:(lra) plain_binned HW HV R0 eq_refl (or_introl eq_refl) eq_refl eq_refl
    eq_refl ltac:(cbn; lra) ltac:(cbn; lra) ltac:(cbn; discriminate) 0 KS) as (t & F & N & SC).
  exists t. split; [exact F|]. split; [exact N|].
  rewrite (learned_mean gm bppf erfinv bad 0 plain_group (n_cfg 2) ex_rate noisy ltac:(lra) plain_binned HW HV R0 eq_refl (or_introl eq_refl) eq_refl eq_refl
    _ t 0%nat _ first_cell 1 F eq_refl noisy_cell noisy_cell_mean (or_introl eq_refl)). rewrite N, SC, noisy_cell_weight.
  cbn [n_cfg c_maxiter left_over]. unfold ex_rate. f_equal. field.
Qed.

Lemma cell_case : forall gm bppf erfinv bad,
  binned_rows [plain_group] noisy /\ Forall (fun s => 0 <= x_w s) noisy /\ visits noisy <> 0 /\
  (forall it i, 0 <= ex_rate it i <= 1) /\ g_smoother plain_group = bin_values /\ g_mnl plain_group = false /\
  cell_of noisy (w_row 0 101 1) first_cell /\ cell_weight first_cell noisy = 2 /\ cell_mean first_cell noisy 1 /\
  exists t, whole_fit gm bppf erfinv bad (GBSRegressor 0) false [plain_group] (n_cfg 2) ex_rate 2 noisy = Trained t /\
    o_iterations t = 2%nat /\ nth_error (whole_predict (GBSRegressor 0) false t noisy) 0 = Some (8 / 9).
Proof.
  intros gm bppf erfinv bad. split; [exact plain_binned|]. split; [repeat constructor; cbn; lra|].
  split; [rewrite noisy_visits; lra|]. split; [intros; unfold ex_rate; lra|]. split; [reflexivity|]. split; [reflexivity|].
  split; [exact noisy_cell|]. split; [exact noisy_cell_weight|]. split; [exact noisy_cell_mean|]. exact (two_passes gm bppf erfinv bad).
Qed.
