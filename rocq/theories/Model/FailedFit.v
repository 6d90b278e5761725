(** Model of the estimator object after a training that fails at some point
    (base.py: _fit_predict, _init_fit, _fit_main): which parts of the former model are
    replaced when, and what [predict] finds afterwards. *)
From Coq Require Import ZArith QArith List Bool Reals.
From Verif.Model Require Import Num LexBins Train Predict.
Import ListNotations.
Local Open Scope R_scope.

(** What a [Feature] object offers to [_predict_factors] (base.py:116-126):
    - [Unfitted]: as constructed (features.py:63-81), factors_link is None;
    - [Bound]: factors_link is neutral (base.py:685-687), the smoother is not fitted;
    - [Holds value]: the contribution of a row. *)
Inductive held := Unfitted | Bound | Holds (value : list fnum -> R).

(** [_predict_factors] on a batch; [None]: an exception, because the smoother has no
    values or factors_link is None. *)
Definition held_predict (h : held) (rows : list (list fnum)) : option (list R) :=
  match h with
  | Unfitted => None
  | Bound => if existsb row_finite_semi_positive rows then None else Some (map (fun _ => 0) rows)
  | Holds value => Some (map value rows)
  end.

(** The object: prior predictions (base.py:446-455), and per feature whether it is
    external and what it holds. *)
Record object := { o_start : list datarow -> preds; o_held : list (bool * held) }.
(** [predict_extended] (base.py:843-856); [None]: an exception. *)
Fixpoint held_from (i : nat) (hs : list (bool * held)) (p : preds) (X : list datarow) : option preds :=
  match hs with
  | [] => Some p
  | (ext, h) :: r => match held_predict h (map (fun x => x i) X) with
                     | Some c => held_from (S i) r (add_preds ext p c) X
                     | None => None
                     end
  end.
Definition predict_object (ob : object) (X : list datarow) : option preds := held_from 0 (o_held ob) (o_start ob X) X.

Section Failing.
Variable cfg : settings.
Variable features : list feature.
Variable calc : nat -> nat -> preds -> list R.
(** Prediction of the smoother of a feature, fitted on the values of the regular bins,
    for a row of bin numbers; the training evaluates it at the bin centres. *)
Variable smooth_at : nat -> nat -> preds -> list R -> list fnum -> option R.
Variable calib : nat -> list R -> list R.
Variable rate : nat -> nat -> R.
Variable loss : preds -> R.
Definition smooth (i it : nat) (p : preds) (values : list R) (k : nat) : option R :=
  smooth_at i it p values
    (map (fun z => Fin (QArith_base.inject_Z z)) (nth k (arange_multi (f_nbins (nth i features {| f_dim := 0; f_rows := []; f_hier := false; f_mnl := false; f_ext := false |}))) [])).

(** The feature after its smoother was fitted in [feature_iteration] (features.py:235-258,
    base.py:658-667): the contributions of rows are those of this one step; [missing] is
    factors_link[-1]. *)
Definition held_step (i : nat) (f : feature) (it : nat) (p0 : preds) (zero : bool) (missing : R) : held :=
  Holds (fun row =>
    if row_finite_semi_positive row then
      if zero || Nat.eqb (f_finite f) 0 then 0
      else match smooth_at i it p0 (firstn (f_finite f) (calc i it p0)) row with
           | Some v => rate it i * v
           | None => 0
           end
    else missing).
Definition bound (h : held) : held := match h with Unfitted => Bound | _ => h end.

(** One pass over the features (base.py:733-747) with what the features hold. [stop]: the
    feature whose [calc_parameters] raises. The second component is [None] then. *)
Definition prepend {A} (s : fstate) (o : option (outcome (list fstate * A))) : option (outcome (list fstate * A)) :=
  match o with
  | Some (Ok (r, q)) => Some (Ok (s :: r, q))
  | _ => o
  end.
Fixpoint pass_held (i : nat) (fl : list feature) (sl : list fstate) (hl : list held) (it : nat) (p : preds)
    (isdiv : bool) (diverging : nat) (initial : R) (stop : option nat)
    : list held * option (outcome (list fstate * preds)) :=
  match fl, sl, hl with
  | f :: fl', s :: sl', h :: hl' =>
      if skipped cfg f it then
        let (r, o) := pass_held (S i) fl' sl' hl' it p isdiv diverging initial stop in
        (bound h :: r, prepend {| s_fitted := s_fitted s; s_factors := s_factors s; s_old := s_factors s;
                                  s_agg := s_agg s; s_zero := s_zero s |} o)
      else if match stop with Some j => Nat.eqb i j | None => false end then (bound h :: hl', None)
      else
        let p0 := if c_aggregate cfg then p else sub_preds (f_ext f) p (gather (s_factors s) (f_lex f)) in
        match feature_iteration cfg calc smooth calib rate loss i f s it p isdiv diverging initial with
        | Raise e => (held_step i f it p0 (s_zero s) (nth (f_finite f) (snd (new_factors calc smooth calib rate i f s it p0)) 0) :: hl',
                      Some (Raise e))
        | Ok (s', p') =>
            let (r, o) := pass_held (S i) fl' sl' hl' it p' isdiv diverging initial stop in
            (held_step i f it p0 (s_zero s') (nth (f_finite f) (s_factors s') 0) :: r, prepend s' o)
        end
  | _, _, _ => ([], Some (Ok ([], p)))
  end.

(** [prepare_feature] of all features (base.py:970-974, features.py:260-268): fails on the
    first that was never fitted. *)
Definition prepared (f : feature) (s : fstate) : held :=
  Holds (fun row => nth 0 (predict_factors (store f s) [row]) 0).
Fixpoint prepare (fl : list feature) (sl : list fstate) (hl : list held) : list held :=
  match fl, sl, hl with
  | f :: fl', s :: sl', h :: hl' => match s_agg s with
                                    | Some _ => prepared f s :: prepare fl' sl' hl'
                                    | None => Unfitted :: hl'
                                    end
  | _, _, _ => []
  end.

(** [_fit_main] (base.py:713-776) with a failure [stop] in (iteration, feature): what the
    features hold afterwards, and whether it returned. [None]: more passes are needed. *)
Fixpoint loop_held (fuel : nat) (initial : R) (st : state) (hl : list held) (stop : option (nat * nat))
    : option (list held * bool) :=
  if continues cfg st then
    match fuel with
    | O => None
    | S k =>
        let stop_here := match stop with Some (it, j) => if Nat.eqb it (t_iter st) then Some j else None | None => None end in
        match pass_held 0 features (t_feats st) hl (t_iter st) (t_preds st) (t_isdiv st) (t_diverging st) initial stop_here with
        | (hl', None) => Some (hl', false)
        | (hl', Some _) =>
            match iteration cfg features calc smooth calib rate loss initial st with
            | Raise _ => Some (hl', false)
            | Ok st' => loop_held k initial st' hl' stop
            end
        end
    end
  else Some (prepare features (t_feats st) hl,
             match finish initial st with Ok _ => true | Raise _ => false end).

(** Where a training may fail besides the exceptions of the training itself:
    - [InChecks]: in the checks, weights, external column and default feature groups
      (base.py:701-708);
    - [InFeatures]: in the creation of the features (base.py:709, 439-444);
    - [InScale]: in the global scale or the prior predictions (base.py:711, 824);
    - [InCalc it i]: in [calc_parameters] of feature [i] in iteration [it]. *)
Inductive fault := InChecks | InFeatures | InScale | InCalc (it i : nat).

(** [fit] of an object: the object afterwards, and whether [fit] returned. *)
Definition refit (old : object) (start : list datarow -> preds) (fuel : nat) (p : preds) (at_ : option fault)
    : option (object * bool) :=
  let with_held hl := {| o_start := start; o_held := combine (map f_ext features) hl |} in
  let fresh := map (fun _ => Unfitted) features in
  match at_ with
  | Some InChecks | Some InFeatures => Some (old, false)
  | Some InScale => Some (with_held fresh, false)
  | _ => match loop_held fuel (loss p) (init_state features loss p) fresh
                 (match at_ with Some (InCalc it i) => Some (it, i) | _ => None end) with
         | Some (hl, ok) => Some (with_held hl, ok)
         | None => None
         end
  end.
End Failing.
