(** Vocabulary for renumbering the categories of a column. *)
From Coq Require Import ZArith QArith Qround List Bool Reals FinFun.
From Verif.Model Require Import Num Train WholeFit BinSmoothers.
From Verif.Spec Require Import LexSpec PredictSpec.
Import ListNotations.
Local Open Scope Z_scope.

(** [t] renumbers the categories 0, …, k - 1 of a column; other numbers are kept. *)
Definition permutes (k : Z) (t : Z -> Z) : Prop :=
  (forall z, 0 <= z < k -> 0 <= t z < k) /\
  (forall z, ~ 0 <= z < k -> t z = z) /\
  exists u : Z -> Z, forall z, 0 <= z < k -> 0 <= u z < k /\ t (u z) = z /\ u (t z) = z.

(** The row with the categories of feature group [i] renumbered by [T i], which has
    one renumbering per column. Entries that are not finite stay. *)
Definition relabel_number (t : Z -> Z) (x : fnum) : fnum :=
  match x with Fin q => Fin (inject_Z (t (Qfloor q))) | _ => x end.
Definition relabel_row (T : list (Z -> Z)) (row : list fnum) : list fnum := map2 relabel_number T row.
Definition relabel (T : nat -> list (Z -> Z)) (s : sample) : sample :=
  {| x_bins := fun i => relabel_row (T i) (x_bins s i); x_prior := x_prior s; x_y := x_y s; x_w := x_w s |}.

(** The categories of column [c] are 0, …, [n_c] - 1 and all of them occur; other rows
    have a missing entry. *)
Definition dense (n : list Z) (rows : list (list fnum)) : Prop :=
  shape n /\
  (forall row, In row rows -> length row = length n /\
     (missing_entry row \/ exists t, holds_tuple row t /\ valid_tuple n t)) /\
  (forall c k z, nth_error n c = Some k -> 0 <= z < k ->
     exists row t, In row rows /\ holds_tuple row t /\ valid_tuple n t /\ nth_error t c = Some z).

Definition relabelling (gs : list group) (D : list sample) (T : nat -> list (Z -> Z)) : Prop :=
  forall i g, nth_error gs i = Some g -> (1 <= g_dim g)%nat /\
    exists n, length n = g_dim g /\ dense n (map (fun s => x_bins s i) D) /\ Forall2 permutes n (T i).

(** Rows to predict: integers (also such that do not occur in the training) or
    missing values. *)
Definition integer_rows (gs : list group) (X : list sample) : Prop :=
  forall s i g, In s X -> nth_error gs i = Some g ->
    length (x_bins s i) = g_dim g /\ forall x, In x (x_bins s i) -> whole x.

(** [b] is [a] with entry [k] moved to position [sigma k]. *)
Definition renumbered {A} (sigma : nat -> nat) (a b : list A) : Prop :=
  forall k, nth_error b (sigma k) = nth_error a k.
Definition bijection (n : nat) (sigma : nat -> nat) : Prop :=
  Injective sigma /\ (forall k, (k < n)%nat -> (sigma k < n)%nat) /\ (forall k, (n <= k)%nat -> sigma k = k).

(** The smoother treats the bins alike, whatever their numbers; or at least as long
    as the first bin stays the first. *)
Definition label_free_for (ok : (nat -> nat) -> Prop) (s : bin_smoother) : Prop :=
  forall sigma n centres w w' u u' v v' k, bijection n sigma -> ok sigma ->
    length w = n -> length u = n -> length v = n ->
    renumbered sigma w w' -> renumbered sigma u u' -> renumbered sigma v v' -> (k < n)%nat ->
    s centres w' u' v' (sigma k) = s centres w u v k.
Definition label_free : bin_smoother -> Prop := label_free_for (fun _ => True).
Definition label_free_but_first : bin_smoother -> Prop := label_free_for (fun sigma => sigma 0%nat = 0%nat).

(** The same training result, up to the numbers of the categories. *)
Definition same_up_to_labels (k : kind) (prior : bool) (gs : list group) (T : nat -> list (Z -> Z)) (r r' : result) : Prop :=
  match r, r' with
  | Trained m, Trained m' =>
      o_scale m' = o_scale m /\ o_offset m' = o_offset m /\ o_iterations m' = o_iterations m /\ o_loss m' = o_loss m /\
      forall X, integer_rows gs X -> whole_predict k prior m' (map (relabel T) X) = whole_predict k prior m X
  | _, _ => r = r'
  end.
