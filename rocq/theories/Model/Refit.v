(** Model of an estimator object over several calls of [fit] (base.py:284-332,
    357-455, 694-776, 970-974, observers.py:103-156): which attributes a training sets
    anew, which it only extends, and what it reads from them. *)
From Coq Require Import ZArith QArith List Bool Reals String.
From Verif.Model Require Import Num LexBins Train Predict Link Estimators Gbs WholeFit Frames Importance Diagnostics.
Import ListNotations.
Local Open Scope R_scope.

(** Training data: the columns of bin numbers by label, and per row the prior prediction
    ([None]: not finite), target and weight. The columns of prior predictions and weights
    are kept apart here; how they are excluded from the feature groups is modelled in
    Lifecycle.v. *)
Record target := { v_prior : option R; v_y : R; v_w : R }.
Record data := { d_cols : list (label * list fnum); d_targets : list target }.

(** [get_X_column] (utils.py:79-110) for the columns of all feature groups; [None]: a
    column is missing. *)
Fixpoint read_columns (cols : list (label * list fnum)) (names : list label) : option (list (list fnum)) :=
  match names with
  | [] => Some []
  | c :: r => match get_column cols c, read_columns cols r with
              | Some v, Some vs => Some (v :: vs)
              | _, _ => None
              end
  end.
Fixpoint read_groups (cols : list (label * list fnum)) (gl : list (list label)) : option (list (list (list fnum))) :=
  match gl with
  | [] => Some []
  | g :: r => match read_columns cols g, read_groups cols r with
              | Some v, Some vs => Some (v :: vs)
              | _, _ => None
              end
  end.
Definition data_rows (columns : list (list (list fnum))) (T : list target) : list sample :=
  map2 (fun r t => {| x_bins := fun i => map (fun c => nth r c NaN) (nth i columns []);
                      x_prior := v_prior t; x_y := v_y t; x_w := v_w t |}) (seq 0 (List.length T)) T.

Definition column_of (c : label) : Importance.column :=
  match c with LName s => CName s | LPos n => CIndex (Z.of_nat n) end.

(** The attributes of the estimator that trainings write. [b_states]: what the [Feature]
    objects hold, [None] as constructed (features.py:63-81); [b_bound]: the bins they are
    bound to; [b_records]: the observers, each with the iteration it was asked for. *)
Record object := {
  b_groups : option (list (list label));   (* feature_groups *)
  b_weights : option (list R);             (* weights *)
  b_states : list (option fstate);         (* features *)
  b_bound : list feature;
  b_scale : option R;                      (* global_scale_link_ *)
  b_offset : R;                            (* prior_pred_link_offset_ *)
  b_diverging : nat;                       (* diverging *)
  b_isdiv : bool;                          (* is_diverging *)
  b_loss : R;                              (* insample_loss_ *)
  b_initial : R;                           (* initial_loss_ *)
  b_iter : nat;                            (* iteration_ *)
  b_importances : importances;             (* feature_importances *)
  b_records : list (Z * record)            (* observers *)
}.
(** The constructor (base.py:284-332). Attributes that it sets to None and that are
    numbers here are 0. *)
Definition new_object (groups : option (list (list label))) (observers : list (Z * record)) : object :=
  {| b_groups := groups; b_weights := None; b_states := []; b_bound := []; b_scale := None; b_offset := 0;
     b_diverging := 0; b_isdiv := false; b_loss := 0; b_initial := 0; b_iter := 0; b_importances := [];
     b_records := observers |}.

Inductive error := BadData | NoScale | MissingColumn | Training (e : fit_error) | Endless.

Section Object.
Variable gamma_median : R -> R.
Variable beta_ppf : R -> R -> R -> R.
Variable erfinv : R -> R.
Variable bad : R.
Variable k : kind.
Variable prior_column : bool.
Variable cfg : settings.
Variable rate : nat -> nat -> R.
(** [_check_len_data] and [_check_y] (base.py:701-702). *)
Variable accepted : list target -> bool.
(** The configuration of a feature group, from its labels: flags, hierarchy, smoother. *)
Variable style : list label -> group.

(** [_init_fit] (base.py:700-711) up to the creation of the features. *)
Definition init_weights (o : object) (T : list target) : object :=
  {| b_groups := b_groups o; b_weights := Some (map v_w T); b_states := b_states o; b_bound := b_bound o;
     b_scale := b_scale o; b_offset := b_offset o; b_diverging := b_diverging o; b_isdiv := b_isdiv o;
     b_loss := b_loss o; b_initial := b_initial o; b_iter := b_iter o; b_importances := b_importances o;
     b_records := b_records o |}.
Definition default_groups (o : object) (cols : list (label * list fnum)) : list (list label) :=
  match b_groups o with Some g => g | None => map (fun c => [c]) (map fst cols) end.
Definition init_features (o : object) (gl : list (list label)) : object :=
  {| b_groups := Some gl; b_weights := b_weights o; b_states := map (fun _ => None) gl; b_bound := [];
     b_scale := b_scale o; b_offset := b_offset o; b_diverging := b_diverging o; b_isdiv := b_isdiv o;
     b_loss := b_loss o; b_initial := b_initial o; b_iter := b_iter o; b_importances := b_importances o;
     b_records := b_records o |}.
(** [_init_global_scale] (base.py:397-433, GBSregression.py:96-99): without a prior
    prediction column, and in [CBGBSRegressor], the offset stays as it is. *)
Definition weights_of (o : object) : list R := match b_weights o with Some w => w | None => [] end.
Definition sets_offset : bool := prior_column && match k with GBSRegressor _ => false | _ => true end.
Definition init_scale (o : object) (T : list target) : object :=
  let scale := kind_scale k (map v_y T) (weights_of o) in
  {| b_groups := b_groups o; b_weights := b_weights o; b_states := b_states o; b_bound := b_bound o;
     b_scale := scale;
     b_offset := match scale with
                 | Some s => if sets_offset then kind_offset k s (map v_prior T) (weights_of o) else b_offset o
                 | None => b_offset o
                 end;
     b_diverging := b_diverging o; b_isdiv := b_isdiv o; b_loss := b_loss o; b_initial := b_initial o;
     b_iter := b_iter o; b_importances := b_importances o; b_records := b_records o |}.

(** The start of [_fit_main] (base.py:714-724), with the features bound to the data: a new
    feature starts with neutral factors (base.py:684-687), one that holds factors keeps
    them. *)
Definition start_loss (o : object) (T : list target) (p : preds) : R := kind_loss bad k (map v_y T) (weights_of o) (p_factors p).
Definition bound_states (fl : list feature) (ss : list (option fstate)) : list (option fstate) :=
  map2 (fun f s => match s with Some x => Some x | None => Some (init_fstate f) end) fl ss.
Definition start_main (o : object) (T : list target) (fl : list feature) (p : preds) : object :=
  {| b_groups := b_groups o; b_weights := b_weights o; b_states := bound_states fl (b_states o); b_bound := fl;
     b_scale := b_scale o; b_offset := b_offset o; b_diverging := 0; b_isdiv := false;
     b_loss := start_loss o T p; b_initial := start_loss o T p; b_iter := 0; b_importances := b_importances o;
     b_records := b_records o |}.

(** The loop state read from the attributes; the convergence parameters are local
    (base.py:727, utils.py:1064-1068). *)
Fixpoint present {A} (l : list (option A)) : list A :=
  match l with
  | [] => []
  | Some x :: r => x :: present r
  | None :: r => present r
  end.
Definition loop_state (o : object) (p : preds) : state :=
  {| t_preds := p; t_feats := present (b_states o); t_iter := b_iter o; t_diverging := b_diverging o;
     t_isdiv := b_isdiv o; t_loss := b_loss o; t_losschange := IZR (10 ^ 20); t_delta := 100 |}.

(** After the training (base.py:762-776, 827): the importances are added to the dictionary,
    the observers have seen every pass, and the weights are deleted. After an exception in the loop only the counter
    of [ConvergenceError] is recorded here: what it leaves in the features is modelled in
    FailedFit.v, and no later training reads it. *)
Definition finished (o : object) (st : state) (observers : list (Z * record)) : object :=
  {| b_groups := b_groups o; b_weights := None; b_states := map Some (t_feats st); b_bound := b_bound o;
     b_scale := b_scale o; b_offset := b_offset o; b_diverging := t_diverging st; b_isdiv := t_isdiv st;
     b_loss := t_loss st; b_initial := b_initial o; b_iter := t_iter st;
     b_importances := set_feature_importances (map (map column_of) (match b_groups o with Some g => g | None => [] end))
                        (b_bound o) (t_feats st) (b_importances o);
     b_records := observers |}.
Definition aborted (o : object) (observers : list (Z * record)) : object :=
  {| b_groups := b_groups o; b_weights := b_weights o; b_states := b_states o; b_bound := b_bound o;
     b_scale := b_scale o; b_offset := b_offset o; b_diverging := 5; b_isdiv := true;
     b_loss := b_loss o; b_initial := b_initial o; b_iter := b_iter o; b_importances := b_importances o;
     b_records := observers |}.

(** The link predictions at the start (base.py:446-455, 824). *)
Definition start_preds (o : object) (s : R) (linked : option (list (option R))) (n : nat) : preds :=
  {| p_factors := prior_predictions s (b_offset o) linked n; p_exponents := zeros n |}.

(** [fit] (base.py:694-776, 817-829): the exception, if any, and the object afterwards.
    Simplified: a missing column is noticed before the first pass, and a baseline that is
    not finite ends the training. *)
Definition fit_object (fuel : nat) (o : object) (d : data) : option error * object :=
  let T := d_targets d in
  if negb (accepted T) then (Some BadData, o)
  else
    let o1 := init_weights o T in
    let gl := default_groups o1 (d_cols d) in
    let o2 := init_scale (init_features o1 gl) T in
    match b_scale o2 with
    | None => (Some NoScale, o2)
    | Some s =>
        match read_groups (d_cols d) gl with
        | None => (Some MissingColumn, o2)
        | Some columns =>
            let D := data_rows columns T in
            let gs := map style gl in
            let fl := bind_groups D 0 gs in
            let p := start_preds o2 s (linked_column k prior_column D) (List.length D) in
            let o3 := start_main o2 T fl p in
            let y := map v_y T in
            let w := weights_of o3 in
            let calc := fun i (_ : nat) p => map (estimate_value bad) (group_estimates gamma_median beta_ppf erfinv k fl y w i p) in
            let smooth := fun i (_ : nat) p => group_smoother gamma_median beta_ppf erfinv bad k gs fl y w i p in
            let calib := kind_calibration k fl w in
            let loss := fun p => kind_loss bad k y w (p_factors p) in
            let calls := observe_calls cfg fl calc smooth calib rate loss fuel (b_initial o3) (loop_state o3 p) in
            let seen := map (fun e => (fst e, fold_left (observe (fst e)) calls (snd e))) (b_records o3) in
            match loop cfg fl calc smooth calib rate loss fuel (b_initial o3) (loop_state o3 p) with
            | None => (Some Endless, o3)
            | Some (Raise e) => (Some (Training e), aborted o3 seen)
            | Some (Ok st) => (None, finished o3 st seen)
            end
        end
    end.

(** [predict] (base.py:839-856) of rows of bin numbers; [None]: an exception. *)
Definition predict_object (o : object) (columns : list (list (list fnum))) (T : list target) : option (list R) :=
  let X := data_rows columns T in
  match b_scale o with
  | None => None
  | Some s => Some (cb_predict (kind_output k) s (b_offset o)
                      (map2 store (b_bound o) (present (b_states o))) (linked_column k prior_column X) (map x_bins X))
  end.
(** ... of a data frame. *)
Definition predict_frame (o : object) (X : data) : option (list R) :=
  match b_groups o with
  | None => None
  | Some gl => match read_groups (d_cols X) gl with
               | Some columns => predict_object o columns (d_targets X)
               | None => None
               end
  end.
End Object.
