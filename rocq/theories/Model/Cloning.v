(** Model of [clone] (utils.py:671-710), of [get_params] and [set_params] of the
    estimators (scikit-learn's BaseEstimator: the constructor's keywords are
    attributes) and of the smoothers of the features (features.py:372-412). *)
From Coq Require Import ZArith List Bool.
From Verif.Model Require Import Pipelines.
Import ListNotations.

(** ** Python objects *)
(** A value is a tree; [id] is the identity of a mutable object, so that two nodes with
    the same identity are one object. Numbers, strings, functions and None are atoms.
    [PSeq]: list, tuple, set or frozenset. [POpaque]: any other object without
    [get_params], such as a dict or a [SmootherChoice]. [PEst]: an object with
    [get_params]: its class, the values of the constructor's parameters and what it
    has learned. *)
Inductive pyval :=
| PAtom (a : Z)
| PSeq (id : nat) (items : list pyval)
| POpaque (id : nat) (parts : list pyval)
| PEst (id : nat) (cls : nat) (params learned : list pyval).

(** Allocation: [next] is the first unused identity. *)
Definition on_list (f : pyval -> nat -> pyval * nat) : list pyval -> nat -> list pyval * nat :=
  fix go l next := match l with
                   | [] => ([], next)
                   | v :: r => let '(v', n1) := f v next in let '(r', n2) := go r n1 in (v' :: r', n2)
                   end.
Definition on_list_opt (f : pyval -> nat -> option (pyval * nat)) : list pyval -> nat -> option (list pyval * nat) :=
  fix go l next := match l with
                   | [] => Some ([], next)
                   | v :: r => match f v next with
                               | Some (v', n1) => match go r n1 with
                                                  | Some (r', n2) => Some (v' :: r', n2)
                                                  | None => None
                                                  end
                               | None => None
                               end
                   end.

(** [copy.deepcopy]. Simplification: an object that occurs several times is copied
    several times; [deepcopy] would keep it one object. *)
Fixpoint deepcopy (v : pyval) (next : nat) : pyval * nat :=
  match v with
  | PAtom a => (PAtom a, next)
  | PSeq _ l => let '(l', n) := on_list deepcopy l (S next) in (PSeq next l', n)
  | POpaque _ l => let '(l', n) := on_list deepcopy l (S next) in (POpaque next l', n)
  | PEst _ c p s => let '(p', n1) := on_list deepcopy p (S next) in
                    let '(s', n2) := on_list deepcopy s n1 in (PEst next c p' s', n2)
  end.

Section Clone.
(** Whether the class declares its parameter with that number in [no_deepcopy]. *)
Variable shared : nat -> nat -> bool.

(** [clone(estimator, safe)] (utils.py:671-710); [None] is the TypeError for an object
    without [get_params]. Simplification: constructors store their parameters as they
    are (base estimators are treated by [construct] below). *)
Fixpoint clone (safe : bool) (v : pyval) (next : nat) : option (pyval * nat) :=
  match v with
  | PSeq _ l => match on_list_opt (clone safe) l (S next) with
                | Some (l', n) => Some (PSeq next l', n)
                | None => None
                end
  | PAtom _ | POpaque _ _ => if safe then None else Some (deepcopy v next)
  | PEst _ c p _ =>
      match (fix go (i : nat) (l : list pyval) (next : nat) : option (list pyval * nat) :=
               match l with
               | [] => Some ([], next)
               | v :: r => match (if shared c i then Some (v, next) else clone false v next) with
                           | Some (v', n1) => match go (S i) r n1 with
                                              | Some (r', n2) => Some (v' :: r', n2)
                                              | None => None
                                              end
                           | None => None
                           end
               end) 0%nat p (S next) with
      | Some (p', n) => Some (PEst next c p' [], n)
      | None => None
      end
  end.

(** The smoothers of the features (features.py:399-409): the choice returns a smoother
    for each feature group, possibly one the user has passed, and it is cloned. *)
Fixpoint feature_smoothers (chosen : list pyval) (next : nat) : option (list pyval * nat) :=
  match chosen with
  | [] => Some ([], next)
  | v :: r => match clone true v next with
              | Some (v', n1) => match feature_smoothers r n1 with
                                 | Some (r', n2) => Some (v' :: r', n2)
                                 | None => None
                                 end
              | None => None
              end
  end.
End Clone.

(** Assigning what the object with identity [i] has learned, wherever it occurs. *)
Fixpoint learn (i : nat) (state : list pyval) (v : pyval) : pyval :=
  match v with
  | PAtom a => PAtom a
  | PSeq j l => PSeq j (map (learn i state) l)
  | POpaque j l => POpaque j (map (learn i state) l)
  | PEst j c p s => PEst j c (map (learn i state) p) (if Nat.eqb i j then state else map (learn i state) s)
  end.

(** ** The estimators' settings *)
(** [get_params(deep=False)]. *)
Definition get_params (e : estimator) (att : attributes) : kwargs :=
  fun s => match constructor_signature e s with Some _ => att s | None => None end.

(** [fit] replaces missing feature groups by those found in the data (base.py:706-707). *)
Definition after_fit (groups : value) (att : attributes) : attributes :=
  fun s => match s, att s with
           | feature_groups, Some VNone => Some groups
           | _, v => v
           end.

(** [clone] of a cyclic boosting estimator. *)
Definition clone_estimator (e : estimator) (att : attributes) : result attributes := construct e (get_params e att).

(** An estimator: its attributes and the names of the hierarchical features, which only
    the constructor sets (base.py:297-301). *)
Record object := { ob_att : attributes; ob_hierarchical : value }.
Definition build (e : estimator) (kw : kwargs) : result object :=
  match construct e kw with
  | Ok att => Ok {| ob_att := att; ob_hierarchical := match att hierarchical_feature_groups with Some v => v | None => VNone end |}
  | TypeError => TypeError | ValueError => ValueError | NoValidEstimator => NoValidEstimator
  end.
(** [set_params(name=value)]: an unknown name is a ValueError. *)
Definition set_param (e : estimator) (s : setting) (v : value) (o : object) : result object :=
  match constructor_signature e s with
  | Some _ => Ok {| ob_att := fun s' => if setting_beq s' s then Some v else ob_att o s'; ob_hierarchical := ob_hierarchical o |}
  | None => ValueError
  end.
(** What training and prediction read: all attributes but the two lists of feature
    groups of the price model, which only its constructor combines (price.py:238-248;
    base.py:444), and the names of the hierarchical features if there are any
    (base.py:735-737). *)
Definition reads (o : object) (s : setting) : option value :=
  match s with
  | standard_feature_groups | external_feature_groups => None
  | _ => ob_att o s
  end.
Definition hierarchical_names (o : object) : option value :=
  match ob_att o hierarchical_feature_groups with
  | Some VNone | None => None
  | Some _ => Some (ob_hierarchical o)
  end.
