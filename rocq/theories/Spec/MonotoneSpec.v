(** Vocabulary for monotone columns of whole pipelines. *)
From Coq Require Import ZArith NArith QArith List Bool Reals String.
From Verif.Model Require Import Num Flags Ecdf BinTransform Frames LexBins Train Predict Link Estimators WholeFit Refit
  SmootherChoice MetaSmoothers Isotonic Pipe.
From Verif.Spec Require Import FrameSpec PipeSpec.
Import ListNotations.

(** The group's smoother is the algorithm [a], fitted to the values of the bins (bin
    weight sums in whatever rounding) and asked at the bins. *)
Definition fitted_by (a : smoothing_alg) (g : group) : Prop :=
  exists rounded : list R -> list Q, forall centres w u values k,
    g_smoother g centres w u values k =
    nth k (predict a (fit a (smoother_rows (List.length u) (rounded w) u) values) (map bin_row (seq 0 (List.length u)))) None.

(** A column whose only values that are not finite are NaN. *)
Definition finite_column (T : frame) (c : label) : Prop :=
  forall t v, column_is T c t -> In v t -> isfinite v = true \/ v = NaN.

(** The column is part of no interaction. *)
Definition in_no_interaction (c : label) (o : object) : Prop :=
  forall gl g, b_groups o = Some gl -> In g gl -> In c g -> g = [c].

(** The rows differ in column [c] at most, where both hold numbers and the second one is
    not smaller. *)
Definition grows_in (c : label) : frame -> nat -> frame -> nat -> Prop :=
  rows_agree (fun d v v' => (d = c -> exists q q', v = Fin q /\ v' = Fin q' /\ (q <= q')%Q) /\ (d <> c -> v = v')).
