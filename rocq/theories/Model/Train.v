(** Model of the training loop in cyclic_boosting/base.py and
    cyclic_boosting/features.py.

    Numbers are reals: rounding, overflow and NaN losses are not modelled. What
    the loop only calls (bin statistics, smoothers, loss, link, learning rate,
    calibration, link prediction) are section variables, so that every theorem
    about [fit_main] holds for all of them. *)
From Coq Require Import ZArith QArith List Bool Reals.
From Verif.Model Require Import Num LexBins.
Import ListNotations.
Local Open Scope R_scope.

Fixpoint map2 {A B C} (f : A -> B -> C) (a : list A) (b : list B) : list C :=
  match a, b with
  | x :: r, y :: s => f x y :: map2 f r s
  | _, _ => []
  end.
Definition vadd := map2 Rplus.
Definition vsub := map2 Rminus.
Definition zeros (n : nat) : list R := repeat 0 n.

(** [values[bins]] for bin numbers inside the array. *)
Definition gather (values : list R) (bins : list nat) : list R :=
  map (fun k => nth k values 0) bins.

(** [np.clip(x, lo, hi)] = minimum(maximum(x, lo), hi). *)
Definition clip (lo hi x : R) : R := Rmin (Rmax x lo) hi.

Definition Rleb (a b : R) : bool := if Rle_dec a b then true else false.
Definition Rltb (a b : R) : bool := if Rlt_dec a b then true else false.
Definition Reqb (a b : R) : bool := if Req_EM_T a b then true else false.

Fixpoint sumR (l : list R) : R := match l with [] => 0 | x :: r => x + sumR r end.
Definition mean (l : list R) : R := sumR l / INR (length l).

(** A feature group with the bin numbers of its training rows
    ([Feature], features.py:27-150). [f_ext]: feature_type is "external". *)
Record feature := {
  f_dim : nat;
  f_rows : list (list fnum);
  f_hier : bool;   (* feature_group in hierarchical_features *)
  f_mnl : bool;    (* missing_not_learned, features.py:114-119 *)
  f_ext : bool
}.

(** [Feature.bind_data] (features.py:151-171): the first call determines the
    numbers of bins from the data, later calls use the same numbers on the same
    data and so give the same result. *)
Definition f_nbins (f : feature) : list Z := snd (lexicographic_binnos (f_dim f) (f_rows f) None).
Definition f_lex (f : feature) : list nat :=
  map Z.to_nat (fst (lexicographic_binnos (f_dim f) (f_rows f) None)).
Definition f_finite (f : feature) : nat := Z.to_nat (prodZ (f_nbins f)).

(** Mutable part of a [Feature]. [s_agg = None]: fitted_aggregated is None. *)
Record fstate := {
  s_fitted : bool;
  s_factors : list R;
  s_old : list R;
  s_agg : option (list R);
  s_zero : bool      (* the smoother has been replaced by ZeroSmoother *)
}.

(** The link predictions of the training rows: the columns "factors" and
    "exponents" (base.py:50-105, price.py:448-475). *)
Record preds := { p_factors : list R; p_exponents : list R }.

(** [update_predictions] and [remove_predictions] without influence categories
    (base.py:78-92). *)
Definition add_preds (ext : bool) (p : preds) (c : list R) : preds :=
  if ext then {| p_factors := p_factors p; p_exponents := vadd (p_exponents p) c |}
  else {| p_factors := vadd (p_factors p) c; p_exponents := p_exponents p |}.
Definition sub_preds (ext : bool) (p : preds) (c : list R) : preds :=
  if ext then {| p_factors := p_factors p; p_exponents := vsub (p_exponents p) c |}
  else {| p_factors := vsub (p_factors p) c; p_exponents := p_exponents p |}.

Inductive fit_error := ConvergenceError | TypeError.
Inductive outcome (A : Type) := Ok (a : A) | Raise (e : fit_error).
Arguments Ok {A} a. Arguments Raise {A} e.

(** Settings of the estimator used by the loop. *)
Record settings := {
  c_aggregate : bool;
  c_log : bool;            (* isinstance(self, LogLinkMixin) *)
  c_hier : bool;           (* hierarchical_feature_groups is not None *)
  c_thier : nat;           (* training_iterations_hierarchical_features *)
  c_maxiter : nat;         (* maximal_iterations *)
  c_minfactor : R;         (* minimal_factor_change *)
  c_minloss : R            (* minimal_loss_change *)
}.

(** State of the loop in [_fit_main]. *)
Record state := {
  t_preds : preds;
  t_feats : list fstate;
  t_iter : nat;
  t_diverging : nat;
  t_isdiv : bool;
  t_loss : R;        (* insample_loss_ *)
  t_losschange : R;
  t_delta : R
}.

(** [_set_factors_per_feature] (base.py:572-587). *)
Definition factor_limits (f : feature) : R * R :=
  if f_ext f then
    (if Nat.eqb (f_dim f) 1 then (5/100, 20) else (1/10, 5))
  else
    (if Nat.eqb (f_dim f) 1 then (1/100, 1000) else (1/10, 100)).

Section Training.
Variable cfg : settings.
Variable features : list feature.
(** [calc_parameters] of feature [i] in iteration [it]: bin values in link
    space, for all bins including the missing bin, depending on the predictions
    (base.py:656). Assumed finite. *)
Variable calc : nat -> nat -> preds -> list R.
(** Prediction of the smoother of feature [i], fitted on the values of the
    regular bins, for bin [k]; [None] is a non-finite number (features.py:250-254,
    base.py:120-121). *)
Variable smooth : nat -> nat -> preds -> list R -> nat -> option R.
(** [calibrate_to_weighted_mean] (base.py:1088-1089, location.py:218-230). *)
Variable calib : nat -> list R -> list R.
(** [learning_rate] (base.py:348-350) of feature [i] in iteration [it]. *)
Variable rate : nat -> nat -> R.
(** Loss of the predictions, [self.loss(self.unlink_func(pred.predict_link()), y,
    self.weights)]. *)
Variable loss : preds -> R.

(** [is_diverged] (base.py:481-482). *)
Definition is_diverged (initial l : R) : bool := Rltb (initial * 2) l.

(** [update_factors] and [_predict_factors] on the bins of the feature
    (features.py:235-258, base.py:116-126, 656-669). Returns the unfitted factors
    as computed and the new factors in link space. *)
Definition new_factors (i : nat) (f : feature) (s : fstate) (it : nat) (p : preds) : list R * list R :=
  let unfitted := calc i it p in
  let n := f_finite f in
  let lr := rate it i in
  let nan_bin := if f_mnl f then 0 else nth n unfitted 0 * lr in
  let predicted := map (fun k =>
      if s_zero s then lr * 0
      else match smooth i it p (firstn n unfitted) k with Some v => lr * v | None => 0 end) (seq 0 n) in
  (unfitted, calib i (predicted ++ [nan_bin])).

(** Clipping part of [visit_factors] (base.py:592-607). *)
Definition clip_step (fs : list R) : list R := map (clip (ln (1/2)) (ln 2)) fs.
Definition clip_absolute (f : feature) (agg fs : list R) : list R :=
  let (mn, mx) := factor_limits f in
  map2 (fun a x => clip (ln mn - a) (ln mx - a) x) agg fs.

(** [visit_factors] (base.py:589-647). Returns factors and whether the smoother
    is replaced by [ZeroSmoother]. *)
Definition limit_factors (f : feature) (s : fstate) (unfitted fs : list R)
    (p : preds) (isdiv : bool) (diverging : nat) (initial : R) : outcome (list R * bool) :=
  if c_log cfg && c_aggregate cfg then
    let fs1 := clip_step fs in
    let fs2 := if s_fitted s then match s_agg s with Some a => clip_absolute f a fs1 | None => fs1 end else fs1 in
    if isdiv then
      let diverged := is_diverged initial (loss (add_preds (f_ext f) p (gather fs2 (f_lex f)))) in
      if Nat.ltb 1 diverging then
        if diverged then
          match s_agg s with
          | Some a => Ok (map Ropp a, true)
          | None => Raise TypeError
          end
        else Ok (fs2, s_zero s)
      else if diverged then
        Ok (map2 (fun u x => clip (u + ln (8/10)) (u + ln (12/10)) x) unfitted fs2, s_zero s)
      else Ok (fs2, s_zero s)
    else Ok (fs2, s_zero s)
  else Ok (fs, s_zero s).

Definition visit_factors (f : feature) (s : fstate) (unfitted fs : list R)
    (p : preds) (isdiv : bool) (diverging : nat) (initial : R) : outcome fstate :=
  match limit_factors f s unfitted fs p isdiv diverging initial with
  | Raise e => Raise e
  | Ok (fs', z) =>
      Ok {| s_fitted := true;
            s_factors := fs';
            s_old := s_factors s;
            s_agg := Some (if s_fitted s && c_aggregate cfg
                           then match s_agg s with Some a => vadd a fs' | None => fs' end
                           else fs');
            s_zero := z |}
  end.

(** [feature_iteration] (base.py:649-675). *)
Definition feature_iteration (i : nat) (f : feature) (s : fstate) (it : nat) (p : preds)
    (isdiv : bool) (diverging : nat) (initial : R) : outcome (fstate * preds) :=
  let p0 := if c_aggregate cfg then p else sub_preds (f_ext f) p (gather (s_factors s) (f_lex f)) in
  let (unfitted, fs) := new_factors i f s it p0 in
  match visit_factors f s unfitted fs p0 isdiv diverging initial with
  | Raise e => Raise e
  | Ok s' => Ok (s', add_preds (f_ext f) p0 (gather (s_factors s') (f_lex f)))
  end.

(** Loop over the features (base.py:733-747); groups that are not hierarchical
    are skipped in the first iterations. *)
Definition skipped (f : feature) (it : nat) : bool :=
  c_hier cfg && Nat.ltb it (c_thier cfg) && negb (f_hier f).

Fixpoint features_pass (i : nat) (fl : list feature) (sl : list fstate) (it : nat) (p : preds)
    (isdiv : bool) (diverging : nat) (initial : R) : outcome (list fstate * preds) :=
  match fl, sl with
  | f :: fl', s :: sl' =>
      let here :=
        if skipped f it then
          Ok ({| s_fitted := s_fitted s; s_factors := s_factors s; s_old := s_factors s;
                 s_agg := s_agg s; s_zero := s_zero s |}, p)
        else feature_iteration i f s it p isdiv diverging initial in
      match here with
      | Raise e => Raise e
      | Ok (s', p') =>
          match features_pass (S i) fl' sl' it p' isdiv diverging initial with
          | Raise e => Raise e
          | Ok (r, q) => Ok (s' :: r, q)
          end
      end
  | _, _ => Ok ([], p)
  end.

(** [remove_preds] (base.py:557-570): the factors of the iteration are taken
    back, but kept in [factors_link]. *)
Fixpoint remove_preds (fl : list feature) (sl : list fstate) (p : preds) : outcome (list fstate * preds) :=
  match fl, sl with
  | f :: fl', s :: sl' =>
      let p' := sub_preds (f_ext f) p (gather (s_factors s) (f_lex f)) in
      match s_agg s with
      | None => Raise TypeError
      | Some a =>
          match remove_preds fl' sl' p' with
          | Raise e => Raise e
          | Ok (r, q) =>
              Ok ({| s_fitted := s_fitted s; s_factors := s_factors s; s_old := s_old s;
                     s_agg := Some (vsub a (s_factors s)); s_zero := s_zero s |} :: r, q)
          end
      end
  | _, _ => Ok ([], p)
  end.

(** [_factors_deviation] (base.py:129-139). *)
Definition factors_deviation (sl : list fstate) : R :=
  mean (map (fun s => mean (map Rabs (vsub (s_factors s) (s_old s)))) sl).

(** [_update_loss] (base.py:502-515) without the convergence check. *)
Definition loss_change (old new : R) : R :=
  if Reqb old 0 then old - new else (old - new) / old.

(** One pass of the [while] loop (base.py:730-760), with [_check_convergence]
    (base.py:484-500). *)
Definition iteration (initial : R) (st : state) : outcome state :=
  match features_pass 0 features (t_feats st) (t_iter st) (t_preds st) (t_isdiv st) (t_diverging st) initial with
  | Raise e => Raise e
  | Ok (sl, p) =>
      let l := loss p in
      let d := is_diverged initial l in
      let diverging := if d then S (t_diverging st) else t_diverging st in
      if d && Nat.leb 5 diverging then Raise ConvergenceError
      else
        let delta := factors_deviation sl in
        let back := if d then remove_preds features sl p else Ok (sl, p) in
        match back with
        | Raise e => Raise e
        | Ok (sl', p') =>
            Ok {| t_preds := p'; t_feats := sl'; t_iter := S (t_iter st);
                  t_diverging := diverging; t_isdiv := d; t_loss := l;
                  t_losschange := loss_change (t_loss st) l; t_delta := delta |}
        end
  end.

(** [_check_stop_criteria] (base.py:880-935). *)
Definition stop_iterations (st : state) : bool := Nat.leb (c_maxiter cfg) (t_iter st).
Definition stop_factor_change (st : state) : bool := Rleb (t_delta st) (c_minfactor cfg).
Definition stop_loss_change (st : state) : bool := Rleb (Rabs (t_losschange st)) (c_minloss cfg).
Definition veto_hierarchical (st : state) : bool := Nat.leb (t_iter st) (c_thier cfg) && c_hier cfg.
Definition check_stop (st : state) : bool :=
  (stop_iterations st || stop_factor_change st || stop_loss_change st) && negb (veto_hierarchical st).

(** Condition of the [while] loop (base.py:729). *)
Definition continues (st : state) : bool := negb (check_stop st) || t_isdiv st.

(** After the loop (base.py:762-776): [prepare_feature] fails on a feature that
    was never fitted, and convergence is checked once more. *)
Definition finish (initial : R) (st : state) : outcome state :=
  if forallb (fun s => match s_agg s with Some _ => true | None => false end) (t_feats st) then
    if is_diverged initial (t_loss st) && Nat.leb 5 (S (t_diverging st)) then Raise ConvergenceError else Ok st
  else Raise TypeError.

(** The [while] loop with at most [fuel] passes; [None] means that more passes
    are needed. *)
Fixpoint loop (fuel : nat) (initial : R) (st : state) : option (outcome state) :=
  if continues st then
    match fuel with
    | O => None
    | S k => match iteration initial st with
             | Raise e => Some (Raise e)
             | Ok st' => loop k initial st'
             end
    end
  else Some (finish initial st).

(** Start of [_fit_main] (base.py:714-727); the factors are initialised to the
    neutral value (base.py:685-687), the convergence parameters to
    (loss_change, delta) = (1e20, 100) (utils.py:1064-1068). *)
Definition init_fstate (f : feature) : fstate :=
  {| s_fitted := false; s_factors := zeros (S (f_finite f)); s_old := zeros (S (f_finite f));
     s_agg := None; s_zero := false |}.
Definition init_state (p : preds) : state :=
  {| t_preds := p; t_feats := map init_fstate features; t_iter := 0;
     t_diverging := 0; t_isdiv := false; t_loss := loss p;
     t_losschange := IZR (10 ^ 20); t_delta := 100 |}.

(** [_fit_main] (base.py:713-776). *)
Definition fit_main (fuel : nat) (p : preds) : option (outcome state) :=
  loop fuel (loss p) (init_state p).

End Training.
