(** Vocabulary for the course of the loss in a training. *)
From Coq Require Import ZArith List Bool Reals.
From Verif.Model Require Import Num LexBins Train Predict Link WholeFit Diagnostics.
From Verif.Spec Require Import RegularizeSpec.
Import ListNotations.
Local Open Scope R_scope.

(** A smoother that returns for each regular bin a value between the estimate of the bin
    and 0, or nothing. *)
Definition shrinks (s : list (list Z) -> list R -> list R -> list R -> nat -> option R) : Prop :=
  forall centres weights uncertainties values b v,
    length uncertainties = length values -> (forall u, In u uncertainties -> 0 <= u) -> (b < length values)%nat ->
    s centres weights uncertainties values b = Some v -> between (nth b values 0) 0 v.

(** Each number is at most the one before. *)
Fixpoint never_rises (l : list R) : Prop :=
  match l with
  | a :: (b :: _) as r => b <= a /\ never_rises r
  | _ => True
  end.

(** The losses that an observer of the training records: that of the baseline, and that
    after each pass. *)
Definition recorded_losses gm bppf erfinv bad k gs cfg rate fuel (D : list sample) (scale : R) : list R :=
  let y := map x_y D in
  let w := map x_w D in
  let features := bind_groups D 0 gs in
  r_loss (observed cfg features
    (fun i _ p => map (estimate_value bad) (group_estimates gm bppf erfinv k features y w i p))
    (fun i _ p => group_smoother gm bppf erfinv bad k gs features y w i p)
    (kind_calibration k features w) rate
    (fun p => kind_loss bad k y w (p_factors p)) (-1) fuel
    {| p_factors := repeat scale (length D); p_exponents := zeros (length D) |}).
