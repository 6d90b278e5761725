(** Model of the pipelines of pipelines.py (lines 175-177): the binning transformer
    followed by an estimator, trained and asked as sklearn.pipeline.Pipeline does. *)
From Coq Require Import ZArith NArith QArith Qreals List Bool Reals String.
From Verif.Model Require Import Num Ecdf BinTransform Frames LexBins Train Predict Link Estimators WholeFit Refit.
Import ListNotations.
Local Open Scope R_scope.

(** The binning transformer of a pipeline (pipelines.py:175): the weight column is not
    passed on; epsilon, tolerance and weight column are the defaults of the constructor
    (bin_number_transformer.py:122-145). *)
Definition pipeline_binner (bins : label -> Z) (props : option (label -> option N)) (inplace : bool) : binner :=
  {| b_bins := bins; b_props := props; b_weight := None; b_eps := (1 # 1000000000)%Q; b_tol := (1 # 10)%Q;
     b_inplace := inplace; b_fitted := None |}.

(** Values of a column as the estimator reads them: [None] is not finite. *)
Definition real_value (v : fnum) : option R := match v with Fin q => Some (Q2R q) | _ => None end.

(** [_init_weight_column] and the reading of the prior predictions (base.py:352-367,
    410-411, 449-453). [None]: the column is missing or a weight is not finite
    (simplified: the latter ends the training here). *)
Fixpoint finite_all (l : list (option R)) : option (list R) :=
  match l with
  | [] => Some []
  | Some x :: r => match finite_all r with Some xs => Some (x :: xs) | None => None end
  | None :: _ => None
  end.
Definition read_weights (weight : option label) (X : frame) : option (list R) :=
  match weight with
  | None => Some (map (fun _ => 1) (fr_index X))
  | Some c => match get_column (fr_cols X) c with
              | Some v => finite_all (map real_value v)
              | None => None
              end
  end.
Definition read_priors (prior : option label) (X : frame) : option (list (option R)) :=
  match prior with
  | None => Some (map (fun _ => None) (fr_index X))
  | Some c => match get_column (fr_cols X) c with
              | Some v => Some (map real_value v)
              | None => None
              end
  end.

(** The rows as training sees them, and as prediction sees them (where neither targets
    nor weights are read). *)
Definition train_targets (weight prior : option label) (X : frame) (y : list R) : option (list target) :=
  match read_weights weight X, read_priors prior X with
  | Some w, Some p => Some (map2 (fun pw t => {| v_prior := fst pw; v_y := t; v_w := snd pw |}) (map2 pair p w) y)
  | _, _ => None
  end.
Definition predict_targets (prior : option label) (X : frame) : option (list target) :=
  match read_priors prior X with
  | Some p => Some (map (fun q => {| v_prior := q; v_y := 0; v_w := 1 |}) p)
  | None => None
  end.

(** The columns that can be features (base.py:382-395). Simplified: feature groups do not
    name the weight column or the prior prediction column. *)
Definition feature_columns (weight prior : option label) (X : frame) : list (label * list fnum) :=
  filter (fun cv => negb (excluded prior (fst cv)) && negb (excluded weight (fst cv))) (fr_cols X).

Record pipeline := { l_binner : binner; l_object : object }.
Inductive perror := Binning (e : ferror) | NoColumn | Fitting (e : error).

Section Pipeline.
Variable gamma_median : R -> R.
Variable beta_ppf : R -> R -> R -> R.
Variable erfinv : R -> R.
Variable bad : R.
Variable k : kind.
Variable weight prior : option label.
Variable cfg : settings.
Variable rate : nat -> nat -> R.
Variable accepted : list target -> bool.
Variable style : list label -> group.

Definition has_prior : bool := match prior with Some _ => true | None => false end.

(** [Pipeline.fit]: the transformer is fitted and applied to the training frame, the
    estimator is trained on the result. *)
Definition pipe_fit (fuel : nat) (P : pipeline) (X : frame) (y : list R) : option perror * pipeline :=
  match bin_fit (l_binner P) X with
  | FErr e => (Some (Binning e), P)
  | FOk b =>
      let P1 := {| l_binner := b; l_object := l_object P |} in
      match fst (bin_transform b X) with
      | FErr e => (Some (Binning e), P1)
      | FOk Xt =>
          match train_targets weight prior Xt y with
          | None => (Some NoColumn, P1)
          | Some T =>
              match fit_object gamma_median beta_ppf erfinv bad k has_prior cfg rate accepted style fuel (l_object P)
                      {| d_cols := feature_columns weight prior Xt; d_targets := T |} with
              | (Some e, o) => (Some (Fitting e), {| l_binner := b; l_object := o |})
              | (None, o) => (None, {| l_binner := b; l_object := o |})
              end
          end
      end
  end.

(** [Pipeline.predict]; [None]: an exception. *)
Definition pipe_predict (P : pipeline) (X : frame) : option (list R) :=
  match fst (bin_transform (l_binner P) X) with
  | FErr _ => None
  | FOk Xt =>
      match predict_targets prior Xt with
      | None => None
      | Some T => predict_frame k has_prior (l_object P) {| d_cols := feature_columns weight prior Xt; d_targets := T |}
      end
  end.
End Pipeline.
