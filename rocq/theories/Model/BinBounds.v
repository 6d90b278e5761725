(** Model of [get_bin_bounds] (utils.py:933-953, the same function as
    binning/_utils.py:79-99), of BinNumberTransformer.get_feature_bin_boundaries
    (binning/bin_number_transformer.py:212-213) and of the horizontal axis of the
    factor plots (plots/_1dplots.py). *)
From Coq Require Import ZArith NArith QArith List Bool.
From Verif.Model Require Import Num Flags Ecdf Frames LexBins.
Import ListNotations.

(** [get_feature_bin_boundaries]: the pairs of the dictionary. The table of a column
    without usable values is None; of the others only the boundaries, its first
    column, are used. *)
Definition boundaries (f : fit_result) : option (list fnum) :=
  match f with Fitted _ bb _ => Some bb | _ => None end.
Definition feature_bin_boundaries (fits : list (label * fit_result)) : list (label * option (list fnum)) :=
  map (fun cf => (fst cf, boundaries (snd cf))) fits.

(** [d.update(e)] and the look-up of a key. *)
Definition updated {V} (d e : list (label * V)) : list (label * V) :=
  fold_left (fun d kv => put_column d (fst kv) (snd kv)) e d.

(** The loop over the binners. *)
Inductive bounds_result :=
| NoBounds                     (* None *)
| Bounds (bb : list fnum)
| BoundsError.                 (* TypeError: a binner without a fit *)
Fixpoint all_bounds (d : list (label * option (list fnum))) (bs : list binner) : option (list (label * option (list fnum))) :=
  match bs with
  | [] => Some d
  | b :: r => match b_fitted b with
              | None => None
              | Some fits => all_bounds (updated d (feature_bin_boundaries fits)) r
              end
  end.
Definition get_bin_bounds (binners : option (list binner)) (c : label) : bounds_result :=
  match binners with
  | None => NoBounds
  | Some bs => match all_bounds [] bs with
               | None => BoundsError
               | Some d => match get_column d c with
                           | Some (Some bb) => Bounds bb
                           | _ => NoBounds
                           end
               end
  end.

(** [np.round(v, 5)]. *)
Definition round5 (v : fnum) : fnum :=
  match v with
  | Fin q => Fin (inject_Z (np_round (Fin (q * inject_Z 100000))) / inject_Z 100000)
  | _ => v
  end.

(** The labels of [_get_x_axis] (_1dplots.py:27-31) for given boundaries. *)
Fixpoint midpoints (bb : list fnum) : list fnum :=
  match bb with
  | a :: ((b :: _) as r) => round5 (fscale (1#2) (fadd a b)) :: midpoints r
  | _ => []
  end.
Definition axis_labels (is_continuous : bool) (bb : list fnum) : list fnum :=
  if is_continuous then midpoints bb else tl bb.
(** Which columns are drawn as continuous (_1dplots.py:265). *)
Definition drawn_continuous (prop : N) : bool := is_continuous_set prop || is_linear_set prop.

(** Where the labels (_1dplots.py:32, 290, 163-168) and the smoothed factors
    (_1dplots.py:108-110) of [n] bins are drawn, without the missing bin. *)
Definition axis_range (is_continuous : bool) (n : nat) : list Q :=
  let x := map (fun k => inject_Z (Z.of_nat k)) (seq 0 n) in
  if is_continuous then map (fun v => v - (1#2))%Q x else x.
Definition curve_range (is_continuous : bool) (x : list Q) : list Q :=
  if is_continuous
  then map (fun p => (fst p + snd p) / inject_Z 2)%Q (combine x (tl x ++ [last x 0 + 1]%Q))
  else x.
