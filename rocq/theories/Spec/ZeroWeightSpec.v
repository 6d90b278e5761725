(** Rows of weight zero. *)
From Coq Require Import List Bool Reals.
From Verif.Model Require Import Num Train WholeFit BinFit.
From Verif.Spec Require Import BinFitSpec.
Import ListNotations.
Local Open Scope R_scope.

(** The rows with a weight other than zero. *)
Definition weighty (D : list WholeFit.sample) : list WholeFit.sample := filter (fun s => negb (Reqb (x_w s) 0)) D.
(** Every bin that occurs at all occurs in a row with a weight. *)
Definition covered (D : list WholeFit.sample) : Prop :=
  forall s i, In s D -> exists t, In t (weighty D) /\ x_bins t i = x_bins s i.
(** Costs to which rows without weight do not contribute, if there are others. *)
Definition weighted_costs (costs : cost_function) : Prop :=
  forall rows : list (R * R * R), let rows' := filter (fun r => negb (Reqb (snd r) 0)) rows in rows' <> [] ->
  costs (map (fun r => fst (fst r)) rows) (map (fun r => snd (fst r)) rows) (map snd rows) =
  costs (map (fun r => fst (fst r)) rows') (map (fun r => snd (fst r)) rows') (map snd rows').
(** The modes that minimise given costs; the costs depend neither on the order of the
    rows nor on rows without weight. *)
Definition plain_mode (m : loss_mode) : Prop :=
  match m with MultiplicativeQuantile _ | AdditiveQuantile _ => False | MultiplicativeCosts c | AdditiveCosts c | ClassifierCosts c => symmetric_costs c /\ weighted_costs c end.
