(** Model of the binning transformers on whole data frames:
    binning/ecdf_transformer.py (fit, _check_input_for_transform, transform,
    get_feature_column_names_or_indices, get_weight_column) and
    binning/bin_number_transformer.py (transform, column_selector,
    column_setter). *)
From Coq Require Import ZArith NArith QArith List Bool String.
From Verif.Model Require Import Num BinarySearch Flags Ecdf BinTransform.
Import ListNotations.

(** A column label: a name, or a position in a numpy matrix. *)
Inductive label := LName (s : string) | LPos (n : nat).
Definition label_eqb (a b : label) : bool :=
  match a, b with
  | LName s, LName t => String.eqb s t
  | LPos m, LPos n => Nat.eqb m n
  | _, _ => false
  end.

(** A pandas.DataFrame ([fr_df = true]) or a two-dimensional numpy.ndarray. A
    matrix has the labels [LPos 0], [LPos 1], … and its row labels are not
    observable. [fr_float]: all values live in one float64 block, so
    [np.asarray(X, dtype=float)] does not copy. Simplified: column values are
    floats. *)
Record frame := {
  fr_df : bool;
  fr_float : bool;
  fr_index : list Z;
  fr_cols : list (label * list fnum)
}.

Inductive ferror :=
| ENotFitted           (* RuntimeError, ecdf_transformer.py:256 *)
| EColumnCount         (* ValueError, ecdf_transformer.py:263-267 *)
| ENoColumn            (* KeyError, IndexError or ValueError of a column access *)
| EFlags               (* inconsistent feature property, _utils.py:39 *)
| EEmpty               (* ValueError, ecdf_transformer.py:212 *)
| EWeight              (* ValueError, ecdf_transformer.py:400, 405 *)
| EBins                (* failed binning of one column *)
| ESearch.             (* failed search, see [transform_column] *)
Inductive fresult (A : Type) := FOk (a : A) | FErr (e : ferror).
Arguments FOk {A} a.
Arguments FErr {A} e.

Definition labels (X : frame) : list label := map fst (fr_cols X).

(** [check_frame_empty] (_utils.py:102-112). *)
Definition is_nil {A} (l : list A) : bool := match l with [] => true | _ => false end.
Definition frame_empty (X : frame) : bool := is_nil (fr_index X) || is_nil (fr_cols X).

(** [X[column].values] and [X[:, column]] (bin_number_transformer.py:216-221);
    [None]: no such column. *)
Fixpoint get_column {A} (cols : list (label * A)) (c : label) : option A :=
  match cols with
  | [] => None
  | (d, v) :: r => if label_eqb d c then Some v else get_column r c
  end.

(** [X[column] = v] and [X[:, column] = v] (bin_number_transformer.py:241-246). A
    new column of a DataFrame is appended. *)
Fixpoint put_column {A} (cols : list (label * A)) (c : label) (v : A) : list (label * A) :=
  match cols with
  | [] => [(c, v)]
  | (d, w) :: r => if label_eqb d c then (d, v) :: r else (d, w) :: put_column r c v
  end.
Definition set_column (X : frame) (c : label) (v : list fnum) : frame :=
  {| fr_df := fr_df X; fr_float := fr_float X; fr_index := fr_index X; fr_cols := put_column (fr_cols X) c v |}.

(** [get_feature_column_names_or_indices] (ecdf_transformer.py:349-361) with the
    weight column as the only excluded one; [None] excludes nothing. *)
Definition excluded (weight : option label) (c : label) : bool :=
  match weight with Some w => label_eqb w c | None => false end.
Definition feature_labels (weight : option label) (X : frame) : list label :=
  filter (fun c => negb (excluded weight c)) (labels X).

(** A transformer with its constructor arguments (ecdf_transformer.py:185-205,
    bin_number_transformer.py:122-145) and [bins_and_cdfs_]. Simplified:
    [b_bins] gives a number of bins for every column. *)
Record binner := {
  b_bins : label -> Z;
  b_props : option (label -> option N);
  b_weight : option label;
  b_eps : Q;
  b_tol : Q;
  b_inplace : bool;
  b_fitted : option (list (label * fit_result))
}.

(** [get_weight_column] (ecdf_transformer.py:395-407). Simplified: non-finite
    weights fail. *)
Fixpoint finite_weights (l : list fnum) : option (list Q) :=
  match l with
  | [] => Some []
  | Fin q :: r => match finite_weights r with Some ws => Some (q :: ws) | None => None end
  | _ => None
  end.
Definition frame_weights (weight : option label) (X : frame) : option (list Q) :=
  match weight with
  | None => Some (map (fun _ => 1%Q) (fr_index X))
  | Some w => match get_column (fr_cols X) w with
              | Some v => finite_weights v
              | None => None
              end
  end.

(** The loop of [fit] (ecdf_transformer.py:217-251). *)
Fixpoint fit_loop (b : binner) (X : frame) (ws : list Q) (cols : list label) : fresult (list (label * fit_result)) :=
  match cols with
  | [] => FOk []
  | c :: r =>
      match get_column (fr_cols X) c with
      | None => FErr ENoColumn
      | Some x =>
          match binning_feature_property (b_props b) c with
          | PropNone => fit_loop b X ws r
          | RaiseFlags _ => FErr EFlags
          | Prop_ p =>
              match fit_column p (b_bins b c) (b_eps b) (b_tol b) (combine x ws) with
              | FitNone e => match fit_loop b X ws r with
                             | FOk l => FOk ((c, FitNone e) :: l)
                             | FErr e => FErr e
                             end
              | Fitted e bb cc => match fit_loop b X ws r with
                                  | FOk l => FOk ((c, Fitted e bb cc) :: l)
                                  | FErr e => FErr e
                                  end
              | _ => FErr EBins
              end
          end
      end
  end.

(** [fit] (ecdf_transformer.py:207-252). *)
Definition with_fitted (b : binner) (l : list (label * fit_result)) : binner :=
  {| b_bins := b_bins b; b_props := b_props b; b_weight := b_weight b; b_eps := b_eps b; b_tol := b_tol b;
     b_inplace := b_inplace b; b_fitted := Some l |}.
Definition bin_fit (b : binner) (X : frame) : fresult binner :=
  if frame_empty X then FErr EEmpty
  else match frame_weights (b_weight b) X with
       | None => FErr EWeight
       | Some ws => match fit_loop b X ws (feature_labels (b_weight b) X) with
                    | FOk l => FOk (with_fitted b l)
                    | FErr e => FErr e
                    end
       end.

(** [_check_input_for_transform] (ecdf_transformer.py:254-267). *)
Definition declared (props : option (label -> option N)) (c : label) : bool :=
  match props with
  | None => true
  | Some d => match d c with Some _ => true | None => false end
  end.
Definition check_input (b : binner) (X : frame) : option ferror :=
  match b_fitted b with
  | None => Some ENotFitted
  | Some fits =>
      if Nat.eqb (List.length (filter (declared (b_props b)) (feature_labels (b_weight b) X))) (List.length fits)
      then None else Some EColumnCount
  end.

(** The loop of [BinNumberTransformer.transform]
    (bin_number_transformer.py:199-206) with the state of [X] it leaves behind.
    The narrowing of the integer type (lines 208-209, 244) keeps all values
    (property C11) and is left out. *)
Fixpoint transform_loop (props : option (label -> option N)) (fits : list (label * fit_result)) (X : frame)
  : option ferror * frame :=
  match fits with
  | [] => (None, X)
  | (c, f) :: r =>
      match binning_feature_property props c with
      | PropNone => transform_loop props r X
      | RaiseFlags _ => (Some EFlags, X)
      | Prop_ p =>
          match get_column (fr_cols X) c with
          | None => (Some ENoColumn, X)
          | Some x =>
              match transform_column p f x with
              | None => (Some ESearch, X)
              | Some v => transform_loop props r (set_column X c v)
              end
          end
      end
  end.

(** [BinNumberTransformer.transform] (bin_number_transformer.py:179-210): the
    result and the caller's frame after the call. *)
Definition fitted_of (b : binner) : list (label * fit_result) :=
  match b_fitted b with Some l => l | None => [] end.
Definition has_label (X : frame) (c : label) : bool := existsb (label_eqb c) (labels X).
Definition bin_transform (b : binner) (X : frame) : fresult frame * frame :=
  match check_input b X with
  | Some e => (FErr e, X)
  | None =>
      if frame_empty X then
        if fr_df X
        then if forallb (fun cf => has_label X (fst cf)) (fitted_of b) then (FOk X, X) else (FErr ENoColumn, X)
        else (FOk X, X)
      else
        match transform_loop (b_props b) (fitted_of b) X with
        | (Some e, X') => (FErr e, if b_inplace b then X' else X)
        | (None, X') => (FOk X', if b_inplace b then X' else X)
        end
  end.

(** One column of [ECdfTransformer.transform] (ecdf_transformer.py:282-305) for a
    learned binning; [None] for boundaries that are not finite (outside the
    model) and for failed searches. *)
Definition finite_values (l : list fnum) : option (list Q) := finite_weights l.
Definition of_option (o : option Q) : fnum := match o with Some q => Fin q | None => NaN end.
Definition ecdf_column (p : N) (f : fit_result) (x : list fnum) : option (list fnum) :=
  match f with
  | FitNone _ => Some (map (fun _ => NaN) x)
  | Fitted (Fin e) bb cc =>
      match finite_values bb with
      | Some bq => match ecdf_transform_column p e bq cc x with
                   | Some l => Some (map of_option l)
                   | None => None
                   end
      | None => None
      end
  | _ => None
  end.

(** The loop of [ECdfTransformer.transform] (ecdf_transformer.py:278-305). *)
Fixpoint ecdf_loop (props : option (label -> option N)) (fits : list (label * fit_result)) (X : frame)
  : option ferror * frame :=
  match fits with
  | [] => (None, X)
  | (c, f) :: r =>
      match get_column (fr_cols X) c with
      | None => (Some ENoColumn, X)
      | Some x =>
          match binning_feature_property props c with
          | PropNone => ecdf_loop props r X
          | RaiseFlags _ => (Some EFlags, X)
          | Prop_ p =>
              match ecdf_column p f x with
              | None => (Some ESearch, X)
              | Some v => ecdf_loop props r (set_column X c v)
              end
          end
      end
  end.

(** [ECdfTransformer.transform] (ecdf_transformer.py:269-310): the result and the
    caller's frame after the call. *)
Definition range_index (n : nat) : list Z := map Z.of_nat (seq 0 n).
Definition rebuilt (X : frame) : frame :=
  if fr_df X
  then {| fr_df := true; fr_float := true; fr_index := range_index (List.length (fr_index X)); fr_cols := fr_cols X |}
  else {| fr_df := false; fr_float := true; fr_index := fr_index X; fr_cols := fr_cols X |}.
Definition ecdf_transform (b : binner) (X : frame) : fresult frame * frame :=
  match check_input b X with
  | Some e => (FErr e, X)
  | None =>
      if frame_empty X then (FOk X, X)
      else
        match ecdf_loop (b_props b) (fitted_of b) X with
        | (Some e, X') => (FErr e, if fr_float X then X' else X)
        | (None, X') => (FOk (rebuilt X'), if fr_float X then X' else X)
        end
  end.
