(** Vocabulary for the loss that training reports. *)
From Coq Require Import ZArith QArith List Bool Reals.
From Verif.Model Require Import Num LexBins Train Predict Link WholeFit.
From Verif.Spec Require Import DataSpec PredictSpec.
Import ListNotations.
Local Open Scope R_scope.

(** Rows as they come out of the binning: every group has columns, every row one entry per
    column, and the entries are whole numbers, or missing. *)
Definition binned_rows (gs : list group) (D : list sample) : Prop :=
  well_formed gs D /\ (forall g, In g gs -> (1 <= g_dim g)%nat) /\ forall s i x, In s D -> In x (x_bins s i) -> whole x.

(** Sum of the weighted squared deviations of predictions from targets. *)
Fixpoint squares (rows : list sample) (predictions : list R) : R :=
  match rows, predictions with
  | s :: r, p :: ps => x_w s * (p - x_y s) ^ 2 + squares r ps
  | _, _ => 0
  end.
Definition total_weight (rows : list sample) : R := fold_right (fun s a => x_w s + a) 0 rows.
(** ... of the rows whose target is not zero. *)
Fixpoint visits (rows : list sample) : R :=
  match rows with
  | [] => 0
  | s :: r => (if Req_EM_T (x_y s) 0 then 0 else x_w s) + visits r
  end.

(** The loss of an estimator of the kind [k]. *)
Definition mean_deviation (k : kind) (D : list sample) (predictions : list R) : R :=
  squares D predictions / match k with GBSRegressor _ => visits D | _ => total_weight D end.
