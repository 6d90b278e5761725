(** Model of training with observers (base.py:531-555, 713-776, generic_loss.py:318-322,
    observers.py): when they are called, with what, and what happens if a call fails.
    The loop is that of Train.v. The data for plots ([prepare_plots], base.py:765-766) are
    modelled in PlotData.v and change nothing here. Simplifications: in the first pass the
    groups not yet visited have no factors in the code (base.py:685-687) and neutral ones
    here; a training with observers keeps the sums of weights of the bins
    (features.py:270-274), which only plots use. What [PlottingObserver] keeps is modelled
    in Diagnostics.v. *)
From Coq Require Import ZArith List Bool Reals.
From Verif.Model Require Import Train.
Import ListNotations.
Local Open Scope R_scope.

(** What a call passes to an observer: the number of passes before (-1 at the end), for
    [observe_feature_iterations] the position of the feature group, the predictions (in
    link space), the loss, the change of the factors ([observe_iterations] only), and the
    feature groups of the state (base.py:541-555): positions and parameters. Rows, targets
    and weights are the same in all calls. *)
Record call := {
  e_pass : Z;
  e_feature : option nat;
  e_preds : preds;
  e_loss : R;
  e_delta : option R;
  e_groups : list (nat * fstate)
}.

(** An observer: the smallest and largest number of arguments that [observe_iterations]
    and [observe_feature_iterations] accept, and what it remembers after a call; [None]:
    it raises an exception. It does not change what it is given. *)
Record observer (M : Type) := {
  ob_iteration : nat * nat;
  ob_feature : nat * nat;
  ob_react : M -> call -> option M
}.
Arguments ob_iteration {M}. Arguments ob_feature {M}. Arguments ob_react {M}.
(** [BaseObserver] (observers.py:10-79): it does nothing. *)
Definition base_observer {M} : observer M :=
  {| ob_iteration := (6, 6)%nat; ob_feature := (7, 7)%nat; ob_react := fun m _ => Some m |}.
(** The arguments of [PlottingObserver] (observers.py:118, 159). *)
Definition plotting_observer {M} (react : M -> call -> option M) : observer M :=
  {| ob_iteration := (6, 8)%nat; ob_feature := (7, 7)%nat; ob_react := react |}.

(** The number of arguments passed: with the quantile by quantile estimators
    (base.py:531-539, generic_loss.py:318-322). *)
Definition passed (quantile : bool) (e : call) : nat :=
  match e_feature e with
  | None => if quantile then 8 else 7
  | Some _ => 7
  end.
Definition within (n : nat) (bounds : nat * nat) : bool := Nat.leb (fst bounds) n && Nat.leb n (snd bounds).
Definition accepts {M} (quantile : bool) (o : observer M) (e : call) : bool :=
  within (passed quantile e) match e_feature e with None => ob_iteration o | Some _ => ob_feature o end.
Definition tell {M} (quantile : bool) (o : observer M) (m : M) (e : call) : option M :=
  if accepts quantile o e then ob_react o m e else None.
(** [for observer in self.observers]. *)
Fixpoint tell_all {M} (quantile : bool) (os : list (observer M * M)) (e : call) : option (list (observer M * M)) :=
  match os with
  | [] => Some []
  | (o, m) :: r =>
      match tell quantile o m e with
      | None => None
      | Some m' => match tell_all quantile r e with None => None | Some r' => Some ((o, m') :: r') end
      end
  end.

Section Observed.
Variable cfg : settings.
Variable features : list feature.
Variable calc : nat -> nat -> preds -> list R.
Variable smooth : nat -> nat -> preds -> list R -> nat -> option R.
Variable calib : nat -> list R -> list R.
Variable rate : nat -> nat -> R.
Variable loss : preds -> R.
(** What all observers remember, and how a call changes it. *)
Context {W : Type}.
Variable watch : W -> call -> option W.

(** [get_state] (base.py:541-555). *)
Fixpoint numbered {A} (i : nat) (l : list A) : list (nat * A) :=
  match l with [] => [] | x :: r => (i, x) :: numbered (S i) r end.
Definition state_groups (it : nat) (sl : list fstate) : list (nat * fstate) :=
  map snd (filter (fun e => negb (c_hier cfg && Nat.ltb it (c_thier cfg)) || f_hier (fst e))
                  (combine features (numbered 0 sl))).

(** The loop over the features (base.py:733-752); [before]: the groups already visited,
    [shown] and [l]: predictions and loss at the start of the pass. [None]: an observer
    raised an exception. *)
Fixpoint observed_pass (i : nat) (fl : list feature) (before sl : list fstate) (it : nat) (p : preds)
    (isdiv : bool) (diverging : nat) (initial : R) (shown : preds) (l : R) (w : W)
  : option (outcome (list fstate * preds) * W) :=
  match fl, sl with
  | f :: fl', s :: sl' =>
      if skipped cfg f it then
        observed_pass (S i) fl'
          (before ++ [{| s_fitted := s_fitted s; s_factors := s_factors s; s_old := s_factors s;
                         s_agg := s_agg s; s_zero := s_zero s |}]) sl' it p isdiv diverging initial shown l w
      else
        match feature_iteration cfg calc smooth calib rate loss i f s it p isdiv diverging initial with
        | Raise e => Some (Raise e, w)
        | Ok (s', p') =>
            match watch w {| e_pass := Z.of_nat it; e_feature := Some i; e_preds := shown; e_loss := l;
                             e_delta := None; e_groups := state_groups it (before ++ s' :: sl') |} with
            | None => None
            | Some w' => observed_pass (S i) fl' (before ++ [s']) sl' it p' isdiv diverging initial shown l w'
            end
        end
  | _, _ => Some (Ok (before, p), w)
  end.

(** One pass (base.py:730-760), with the predictions that later calls show. *)
Definition observed_iteration (initial : R) (st : state) (shown : preds) (w : W)
  : option (outcome (state * preds) * W) :=
  match watch w {| e_pass := Z.of_nat (t_iter st); e_feature := None; e_preds := shown; e_loss := t_loss st;
                   e_delta := Some (t_delta st); e_groups := state_groups (t_iter st) (t_feats st) |} with
  | None => None
  | Some w0 =>
      match observed_pass 0 features [] (t_feats st) (t_iter st) (t_preds st) (t_isdiv st) (t_diverging st) initial
              shown (t_loss st) w0 with
      | None => None
      | Some (Raise e, w1) => Some (Raise e, w1)
      | Some (Ok (sl, p), w1) =>
          let l := loss p in
          let d := is_diverged initial l in
          let diverging := if d then S (t_diverging st) else t_diverging st in
          if d && Nat.leb 5 diverging then Some (Raise ConvergenceError, w1)
          else
            let delta := factors_deviation sl in
            match (if d then remove_preds features sl p else Ok (sl, p)) with
            | Raise e => Some (Raise e, w1)
            | Ok (sl', p') =>
                Some (Ok ({| t_preds := p'; t_feats := sl'; t_iter := S (t_iter st);
                             t_diverging := diverging; t_isdiv := d; t_loss := l;
                             t_losschange := loss_change (t_loss st) l; t_delta := delta |}, p), w1)
            end
      end
  end.

(** The end of a training: more passes than [fuel] needed, an exception of an observer, or
    the end of the training itself, with the memory of the observers. *)
Inductive ending := MorePasses | ObserverRaised | Ended (r : outcome state) (w : W).

(** After the loop (base.py:762-776): the factors are the accumulated ones
    (features.py:260-268). *)
Definition prepared (s : fstate) : fstate :=
  {| s_fitted := s_fitted s; s_factors := match s_agg s with Some a => a | None => s_factors s end;
     s_old := s_old s; s_agg := s_agg s; s_zero := s_zero s |}.
Definition observed_finish (initial : R) (st : state) (shown : preds) (w : W) : ending :=
  if forallb (fun s => match s_agg s with Some _ => true | None => false end) (t_feats st) then
    match watch w {| e_pass := (-1)%Z; e_feature := None; e_preds := shown; e_loss := t_loss st;
                     e_delta := Some (t_delta st);
                     e_groups := state_groups (t_iter st) (map prepared (t_feats st)) |} with
    | None => ObserverRaised
    | Some w' =>
        Ended (if is_diverged initial (t_loss st) && Nat.leb 5 (S (t_diverging st)) then Raise ConvergenceError else Ok st) w'
    end
  else Ended (Raise TypeError) w.

Fixpoint observed_loop (fuel : nat) (initial : R) (st : state) (shown : preds) (w : W) : ending :=
  if continues cfg st then
    match fuel with
    | O => MorePasses
    | S k => match observed_iteration initial st shown w with
             | None => ObserverRaised
             | Some (Raise e, w') => Ended (Raise e) w'
             | Some (Ok (st', shown'), w') => observed_loop k initial st' shown' w'
             end
    end
  else observed_finish initial st shown w.

Definition observed_fit (fuel : nat) (p : preds) (w : W) : ending :=
  observed_loop fuel (loss p) (init_state features loss p) p w.
End Observed.
Arguments MorePasses {W}. Arguments ObserverRaised {W}. Arguments Ended {W}.
