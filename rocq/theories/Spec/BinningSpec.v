(** Specification of empirical distributions and of bins, independent of the
    algorithms that compute them. *)
From Coq Require Import ZArith NArith QArith List Bool.
From Verif.Model Require Import Num Flags Ecdf.
Import ListNotations.

(** A sample is a value with a weight. *)
Definition sample : Type := fnum * Q.

(** Strictly increasing sequences of values and of probabilities. *)
Definition increasing (l : list fnum) : Prop :=
  forall i j a b, (i < j)%nat -> nth_error l i = Some a -> nth_error l j = Some b ->
             flt a b = true.
Definition increasingQ (l : list Q) : Prop :=
  forall i j a b, (i < j)%nat -> nth_error l i = Some a -> nth_error l j = Some b ->
             (a < b)%Q.

(** Sum of the weights of the samples satisfying a condition. *)
Fixpoint weight_where (P : fnum -> bool) (zw : list sample) : Q :=
  match zw with
  | [] => 0
  | (x, w) :: r => if P x then (w + weight_where P r)%Q else weight_where P r
  end.
Definition weight_upto (zw : list sample) (v : fnum) : Q := weight_where (fun x => fle x v) zw.
Definition weight_total (zw : list sample) : Q := weight_where (fun x => negb (isnan x)) zw.

(** [v] occurs (numerically) in a list of values. *)
Definition occurs (v : fnum) (l : list fnum) : Prop := exists x, In x l /\ feq x v = true.

(** The pair [zs], [cs] is the empirical distribution of the samples: each
    non-NaN value once, in increasing order, with the share of the total weight
    of the samples <= it. *)
Definition is_ecdf (zw : list sample) (zs : list fnum) (cs : list Q) : Prop :=
  Forall (fun v => v <> NaN) zs /\
  increasing zs /\
  (forall v, occurs v zs <-> occurs v (map fst zw)) /\
  length cs = length zs /\
  (forall i z c, nth_error zs i = Some z -> nth_error cs i = Some c ->
     c == weight_upto zw z / weight_total zw)%Q.

(** Every sample has positive weight. *)
Definition positive_weights (zw : list sample) : Prop := forall x w, In (x, w) zw -> (0 < w)%Q.

(** A transformed value: the missing bin or one of [n] bins. *)
Definition is_missing_bin (y : fnum) : Prop := y = Fin (inject_Z (-1)).
Definition is_bin (y : fnum) (b : Z) : Prop := y = Fin (inject_Z b).

(** A sequence of boundaries with cumulative probabilities is a valid binning
    of the distribution [zs], [cs] into at most [n] bins of weight at least [m]:
    it starts at the smallest value with probability 0; all later boundaries are
    values of the distribution with their probabilities; boundaries (from bin 1
    on) and probabilities increase strictly. *)
Definition valid_binning (zs : list fnum) (cs : list Q) (n : Z) (m : Q)
    (bb : list fnum) (cc : list Q) : Prop :=
  length bb = length cc /\
  (2 <= Z.of_nat (length bb) <= n + 1)%Z /\
  nth_error bb 0 = nth_error zs 0 /\ nth_error cc 0 = Some 0%Q /\
  increasing (tl bb) /\ increasingQ cc /\
  (forall i b c, (0 < i)%nat -> nth_error bb i = Some b -> nth_error cc i = Some c ->
     exists k c', nth_error zs k = Some b /\ nth_error cs k = Some c' /\ (c == c')%Q) /\
  (forall i c c', nth_error cc i = Some c -> nth_error cc (S i) = Some c' -> (m <= c' - c)%Q).

(** A distribution: values and strictly increasing positive probabilities up to 1. *)
Definition distribution (zs : list fnum) (cs : list Q) : Prop :=
  length zs = length cs /\ Forall (fun v => v <> NaN) zs /\ increasing zs /\
  increasingQ cs /\ (forall c, nth_error cs 0 = Some c -> (0 < c)%Q) /\
  exists c, nth_error cs (length cs - 1) = Some c /\ (c == 1)%Q.

(** The cumulative probability a bin that starts at [c] aims at: the next
    multiple of 1/n if [c] exceeds a multiple by at most tol/n, else one share
    1/n further. *)
Definition aim (n : Z) (tol c t : Q) : Prop :=
  exists m : Z, (inject_Z m / inject_Z n <= c /\ c < inject_Z (m + 1) / inject_Z n /\
    ((c - inject_Z m / inject_Z n <= tol / inject_Z n /\ t == inject_Z (m + 1) / inject_Z n) \/
     (tol / inject_Z n < c - inject_Z m / inject_Z n /\ t == c + 1 / inject_Z n)))%Q.
(** Position [k] is the first one with probability at least [t]. *)
Definition first_reaching (cs : list Q) (t : Q) (k : nat) (ck : Q) : Prop :=
  nth_error cs k = Some ck /\ (t <= ck)%Q /\
  forall j cj, (j < k)%nat -> nth_error cs j = Some cj -> (cj < t)%Q.

(** Training columns whose only non-finite values are NaN. *)
Definition finite_or_nan (zw : list sample) : Prop :=
  forall x w, In (x, w) zw -> isfinite x = true \/ x = NaN.

(** The integers -9 and -999, and the values that count as present for a
    column with the given properties. *)
Definition magic (x : fnum) : Prop := feq x (Fin (inject_Z (-9))) = true \/ feq x (Fin (inject_Z (-999))) = true.
Definition regular (prop : N) (x : fnum) : Prop :=
  isfinite x = true /\ ~ (has_magic_missing_set prop = true /\ magic x).

(** The fit did not raise; number of learned bins. *)
Definition usable (f : fit_result) : Prop :=
  match f with FitNone _ => True | Fitted _ _ _ => True | _ => False end.
Definition n_learned (f : fit_result) : Z :=
  match f with Fitted _ bb _ => (Z.of_nat (length bb) - 1)%Z | _ => 0%Z end.

(** Non-decreasing sequence. *)
Definition nondecreasing (l : list Q) : Prop :=
  forall i j a b, (i < j)%nat -> nth_error l i = Some a -> nth_error l j = Some b -> (a <= b)%Q.

(** The samples whose weight is not zero. *)
Definition without_zero (zw : list sample) : list sample :=
  filter (fun p => negb (Qeq_bool (snd p) 0)) zw.
