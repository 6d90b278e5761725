(** Trainings with hierarchical feature groups next to trainings of these groups alone. *)
From Coq Require Import List Bool Reals.
From Verif.Model Require Import Num Train Predict Link Estimators WholeFit.
From Verif.Spec Require Import TrainSpec.
Import ListNotations.
Local Open Scope R_scope.

(** The positions of the hierarchical groups, from [i] on. *)
Fixpoint hier_positions (i : nat) (gs : list group) : list nat :=
  match gs with
  | [] => []
  | g :: r => if g_hier g then i :: hier_positions (S i) r else hier_positions (S i) r
  end.
Definition hier_groups (gs : list group) : list group := filter g_hier gs.
(** The same rows with the columns of the hierarchical groups alone. *)
Definition hier_row (gs : list group) (s : WholeFit.sample) : WholeFit.sample :=
  {| x_bins := fun j => x_bins s (nth j (hier_positions 0 gs) 0%nat); x_prior := x_prior s; x_y := x_y s; x_w := x_w s |}.
Definition hier_rows (gs : list group) (D : list WholeFit.sample) : list WholeFit.sample := map (hier_row gs) D.
(** What the hierarchical groups hold. *)
Definition hier_states (gs : list group) (sl : list fstate) : list fstate :=
  map snd (filter (fun e => g_hier (fst e)) (combine gs sl)).

(** The states of a training at the start of its iterations. *)
Definition training_state (gamma_median : R -> R) (beta_ppf : R -> R -> R -> R) (erfinv : R -> R) (bad : R) (k : kind)
    (prior : bool) (gs : list group) (cfg : settings) (rate : nat -> nat -> R) (D : list WholeFit.sample) (scale offset : R)
    (st : state) : Prop :=
  let y := map x_y D in
  let w := map x_w D in
  let features := bind_groups D 0 gs in
  reached cfg features
    (fun i _ p => map (estimate_value bad) (group_estimates gamma_median beta_ppf erfinv k features y w i p))
    (fun i _ p => group_smoother gamma_median beta_ppf erfinv bad k gs features y w i p)
    (kind_calibration k features w) rate
    (fun p => kind_loss bad k y w (p_factors p))
    {| p_factors := prior_predictions scale offset (linked_column k prior D) (length D); p_exponents := zeros (length D) |} st.

(** Two states that agree in the predictions, the loss and the progress of the training. *)
Definition same_progress (st st' : state) : Prop :=
  t_preds st' = t_preds st /\ t_iter st' = t_iter st /\ t_loss st' = t_loss st /\ t_losschange st' = t_losschange st /\
  t_diverging st' = t_diverging st /\ t_isdiv st' = t_isdiv st.
