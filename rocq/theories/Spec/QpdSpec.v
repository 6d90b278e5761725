(** What a quantile-parametrised distribution shall satisfy. *)
From Coq Require Import List Reals.
From Verif.Model Require Import Qpd.
Import ListNotations.
Local Open Scope R_scope.

(** The contract of the base distributions: continuous, supported everywhere, and
    symmetric around zero. *)
Record base_distribution (d : dist) : Prop := {
  cdf_range : forall x, 0 < d_cdf d x < 1;
  cdf_increasing : forall x y, x < y -> d_cdf d x < d_cdf d y;
  cdf_of_ppf : forall p, 0 < p < 1 -> d_cdf d (d_ppf d p) = p;
  ppf_of_cdf : forall x, d_ppf d (d_cdf d x) = x;
  symmetric : forall p, 0 < p < 1 -> d_ppf d (1 - p) = - d_ppf d p
}.

(** Quantile function and cdf pass through the triplet, increase, and are inverse to
    each other on the support. *)
Definition interpolates (alpha : R) (t : triplet) (ppf cdf : R -> option R) (support : R -> Prop) : Prop :=
  ppf alpha = Some (qv_low t) /\ ppf (1 / 2) = Some (qv_median t) /\ ppf (1 - alpha) = Some (qv_high t) /\
  (forall p q, 0 < p -> p < q -> q < 1 -> exists a b, ppf p = Some a /\ ppf q = Some b /\ a < b) /\
  (forall p, 0 < p < 1 -> exists v, ppf p = Some v /\ support v /\ cdf v = Some p) /\
  (forall v, support v -> exists p, 0 < p < 1 /\ cdf v = Some p /\ ppf p = Some v).

Definition ordered (t : triplet) : Prop := qv_low t < qv_median t < qv_high t.
Definition above (l : R) (v : R) : Prop := l < v.
Definition between (l u : R) (v : R) : Prop := l < v < u.
Definition everywhere (v : R) : Prop := True.

(** An estimator that reproduces the targets of distinct training samples. *)
Definition memorises {X} (est : estimator (X := X)) : Prop :=
  forall xs ts x z, NoDup xs -> length xs = length ts -> In (x, Some z) (combine xs ts) -> est xs ts x = z.
(** The median predicted for the training sample [x]. *)
Definition fitted_median {X} (fitted : (X -> R) * (X -> R) * (X -> R)) bnd l u (x : X) : R :=
  qv_median (chain_predict bnd l u fitted x).
