(** Vocabulary for the order of the columns within a feature group. *)
From Coq Require Import ZArith List Bool Reals Permutation.
From Verif.Model Require Import Num LexBins WholeFit BinSmoothers Frames Refit.
From Verif.Spec Require Import LexSpec.
Import ListNotations.
Local Open Scope Z_scope.

(** The entries in the order given by the positions [ps]. *)
Definition reordered {A} (d : A) (ps : list nat) (l : list A) : list A := map (fun p => nth p l d) ps.

(** [b] is the table [a] of the bins of a group, for the group with the columns in the
    order [ps]: the entry of each bin is the same. *)
Definition same_entries {A} (ps : list nat) (n : list Z) (a b : list A) : Prop :=
  length b = length a /\
  forall t, valid_tuple n t -> nth_error b (Z.to_nat (number (reordered 0 ps n) (reordered 0 ps t))) = nth_error a (Z.to_nat (number n t)).

(** The smoother gives each bin the same value for either order of the columns. *)
Definition column_order_free (s : bin_smoother) : Prop :=
  forall ps n w w' u u' v v' t, Permutation ps (seq 0 (length n)) -> shape n ->
    Z.of_nat (length w) = size n -> Z.of_nat (length u) = size n -> Z.of_nat (length v) = size n ->
    same_entries ps n w w' -> same_entries ps n u u' -> same_entries ps n v v' -> valid_tuple n t ->
    s (arange_multi (reordered 0 ps n)) w' u' v' (Z.to_nat (number (reordered 0 ps n) (reordered 0 ps t))) =
    s (arange_multi n) w u v (Z.to_nat (number n t)).

(** The feature groups with their columns in another order, configured alike; the
    smoother of a group whose order changes does not care. *)
Definition groups_reordered (style : list label -> group) (gl gl' : list (list label)) : Prop :=
  Forall2 (fun names names' => names' = names \/
     Permutation names names' /\ style names' = style names /\ column_order_free (g_smoother (style names))) gl gl'.

(** The smoother does not look at the positions of the bins. *)
Definition ignores_centres (s : bin_smoother) : Prop := forall c c' w u v k, s c w u v k = s c' w u v k.
