(** Contract of scipy.optimize.curve_fit for a seasonal curve. *)
From Coq Require Import ZArith QArith Qreals List Reals.
From Verif.Model Require Import Num Train MetaSmoothers OneDim.
Import ListNotations.
Local Open Scope R_scope.

(** A curve of the given order: constant, then pairs of sine and cosine. *)
Fixpoint harmonics (k : nat) (par : list R) (x : R) : R :=
  match par with
  | s :: c :: r => s * sin (INR k * x) + c * cos (INR k * x) + harmonics (S k) r x
  | _ => 0
  end.
Definition season_curve (par : list R) (x : R) : R := hd 0 par + harmonics 1 (tl par) x.

(** Sum of the squares of the residuals divided by their uncertainties. *)
Definition curve_error (xs ys sigma par : list R) : R :=
  sumR (map (fun t => ((fst (snd t) - season_curve par (fst t)) / snd (snd t)) ^ 2) (combine xs (combine ys sigma))).

(** The fit returns 2 * order + 1 parameters which minimise the error; without
    enough points it fails with a TypeError. *)
Definition fits_curve (order : nat) (cf : list R -> list R -> list R -> curve_outcome) : Prop :=
  forall xs ys sigma,
    match cf xs ys sigma with
    | Fitted par => (2 * order + 1 <= length xs)%nat /\ length par = (2 * order + 1)%nat /\
        forall par', length par' = (2 * order + 1)%nat -> curve_error xs ys sigma par <= curve_error xs ys sigma par'
    | _ => True
    end.
