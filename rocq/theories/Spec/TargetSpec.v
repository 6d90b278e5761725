(** The documented range of the target of each estimator. *)
From Coq Require Import QArith List.
From Verif.Model Require Import Num Targets.
Import ListNotations.

Inductive range := NonNegative | Real | ZeroOne.
Definition target_range (e : estimator) : range :=
  match e with
  | Poisson | NBinomRegression | Exponential | MultiplicativeQuantile | MultiplicativeGeneric | NBinomC => NonNegative
  | Location | LocPoisson | AdditiveQuantile | AdditiveGeneric | GBS => Real
  | Classifier | GenericClassifier => ZeroOne
  end.
Definition in_range (r : range) (v : fnum) : Prop :=
  exists q, v = Fin q /\ match r with NonNegative => (0 <= q)%Q | Real => True | ZeroOne => (q == 0 \/ q == 1)%Q end.
