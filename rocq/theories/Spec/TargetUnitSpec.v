(** Vocabulary for targets in another unit, such as cents instead of euros. *)
From Coq Require Import ZArith List Bool Reals.
From Verif.Model Require Import Num LexBins Train Predict Link WholeFit.
Import ListNotations.
Local Open Scope R_scope.

(** The row with target and prior prediction in the other unit. *)
Definition unit_row (b : R) (s : sample) : sample :=
  {| x_bins := x_bins s; x_prior := option_map (Rmult b) (x_prior s); x_y := b * x_y s; x_w := x_w s |}.

(** The settings with the smallest change of the factors in the other unit. *)
Definition unit_settings (b : R) (cfg : settings) : settings :=
  {| c_log := c_log cfg; c_aggregate := c_aggregate cfg; c_hier := c_hier cfg; c_thier := c_thier cfg;
     c_maxiter := c_maxiter cfg; c_minfactor := b * c_minfactor cfg; c_minloss := c_minloss cfg |}.

(** The model with baseline and contributions in the other unit; the loss is a square. *)
Definition unit_group (b : R) (g : trained) : trained :=
  {| m_dim := m_dim g; m_nbins := m_nbins g; m_ext := m_ext g;
     m_values := map (Rmult b) (m_values g); m_missing := b * m_missing g; m_smoother := m_smoother g |}.
Definition unit_model (b : R) (m : model) : model :=
  {| o_scale := b * o_scale m; o_offset := b * o_offset m; o_groups := map (unit_group b) (o_groups m);
     o_iterations := o_iterations m; o_loss := b ^ 2 * o_loss m |}.
Definition unit_result (b : R) (r : result) : result :=
  match r with Trained m => Trained (unit_model b m) | _ => r end.

(** A smoother that works in every unit. *)
Definition unit_smoother (s : list (list Z) -> list R -> list R -> list R -> nat -> option R) : Prop :=
  forall b centres counts uncertainties values k, 0 < b ->
    s centres counts (map (Rmult b) uncertainties) (map (Rmult b) values) k =
    option_map (Rmult b) (s centres counts uncertainties values k).

(** The targets are not determined by the bins: two rows differ in nothing else. *)
Definition noisy_targets (D : list sample) : Prop :=
  exists s t, In s D /\ In t D /\ (forall i, x_bins s i = x_bins t i) /\ x_prior s = x_prior t /\
    0 < x_w s /\ 0 < x_w t /\ x_y s <> x_y t.
