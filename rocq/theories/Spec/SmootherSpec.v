(** Which smoother a feature gets, read off the flags. *)
From Coq Require Import NArith List Bool String.
From Verif.Model Require Import SmootherChoice.
From Verif.Spec Require Import FlagSpec.
Import ListNotations.
Local Open Scope N_scope.

(** Kinds of features in order of precedence. *)
Inductive kind := Linear | SeasonalKind | Monotonic | Continuous | Ordered | Unordered.
Definition kinds : list kind := [Linear; SeasonalKind; Monotonic; Continuous; Ordered; Unordered].
Definition declares (p : N) (k : kind) : Prop :=
  match k with
  | Linear => has_bit p 8
  | SeasonalKind => has_bit p 9
  | Monotonic => has_bit p 0 /\ has_bit p 3
  | Continuous => has_bit p 0
  | Ordered => has_bit p 1
  | Unordered => has_bit p 2
  end.

(** The first kind that is declared, unordered if none is. *)
Definition feature_kind (p : N) (k : kind) : Prop :=
  (exists before after, kinds = before ++ k :: after /\ declares p k /\ forall k', In k' before -> ~ declares p k') \/
  (k = Unordered /\ forall k', In k' kinds -> ~ declares p k').

(** Its one-dimensional smoother; [normalized]: the factors are centred before. *)
Definition smoother_of_kind (normalized : bool) (p : N) (k : kind) (s : smoother) : Prop :=
  match k with
  | Linear => s = LinearExtrapolator
  | SeasonalKind => s = Seasonal (negb normalized)
  | Monotonic => (has_bit p 11 /\ s = Isotonic IncreasingOnly) \/
                 (~ has_bit p 11 /\ has_bit p 12 /\ s = Isotonic DecreasingOnly) \/
                 (~ has_bit p 11 /\ ~ has_bit p 12 /\ s = Isotonic AutoDirection)
  | Continuous => s = OrthogonalPolynomial
  | Ordered => s = WeightedMeanNeighbors
  | Unordered => s = WeightedMean1D
  end.

(** How far its factors may be used beyond the bins seen in training. *)
Definition type_of_kind (k : kind) : regression_type :=
  match k with
  | Linear => Extrapolating
  | SeasonalKind | Monotonic | Continuous => Interpolating
  | Ordered | Unordered => Discontinuous
  end.

(** [t] allows no more than [u]. *)
Definition freedom (t : regression_type) : nat :=
  match t with Discontinuous => 0 | Interpolating => 1 | Extrapolating => 2 end.

(** The least free type of a list of kinds. *)
Definition group_type (ks : list kind) (t : regression_type) : Prop :=
  (exists k, In k ks /\ type_of_kind k = t) /\ forall k, In k ks -> (freedom t <= freedom (type_of_kind k))%nat.

(** The wrapping asked for by the two settings. *)
Definition wrapped (use_type normalized : bool) (s : smoother) (t : regression_type) : smoother :=
  match use_type, normalized with
  | true, true => NormalizedCut s t
  | true, false => Cut s t
  | false, true => Normalized s
  | false, false => s
  end.

(** A property the library can name in its warning: one of the kinds is declared,
    or missing values are, or only flags are set that have a name. *)
Definition usable (p : N) : Prop :=
  (exists k, declares p k) \/ has_bit p 4 \/ (p < 1024 /\ ~ has_bit p 3 /\ ~ has_bit p 5).

(** [a] is the list [b] with the elements that satisfy [excluded] left out. *)
Inductive without {A} (excluded : A -> Prop) : list A -> list A -> Prop :=
| without_nil : without excluded [] []
| without_drop x a b : excluded x -> without excluded a b -> without excluded a (x :: b)
| without_keep x a b : ~ excluded x -> without excluded a b -> without excluded (x :: a) (x :: b).

(** The declared property of a column, "has missing values" if it is not listed. *)
Definition property_of {K} (properties : option (K -> option N)) (c : K) : N :=
  match properties with
  | Some d => match d c with Some p => p | None => 16 end
  | None => 16
  end.

(** What identifies a feature. *)
Definition feature_id {K} (f : feature_info K) : list K * option string := (fi_group f, fi_type f).

(** The columns and the type a group or feature id stands for; the standard type
    is [None]. *)
Definition columns_of {K} (g : group_or_id K) : list K :=
  match g with Id group _ => group | Tuple group => group | Single c => [c] end.
Definition type_of {K} (g : group_or_id K) : option string :=
  match g with Id _ t => t | _ => None end.
