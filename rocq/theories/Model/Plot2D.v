(** Model of the plot of a feature group of two columns (plots/_2dplots.py). Simplified: all
    values are finite. *)
From Coq Require Import ZArith List Bool Reals.
From Verif.Model Require Import Num Train Estimators PlotAxis.
Import ListNotations.
Local Open Scope R_scope.

(** [np.reshape] of a list without its last entry, the bin for missing values, to the numbers
    of bins of the two columns (_2dplots.py:128-132); [None]: ValueError. *)
Definition reshaped (n m : nat) (l : list R) : option (list (list R)) :=
  if Nat.eqb (length (removelast l)) (n * m)
  then Some (map (fun i => firstn m (skipn (i * m) (removelast l))) (seq 0 n))
  else None.
(** [.T] of a table with [m] columns. *)
Definition transposed (m : nat) (t : list (list R)) : list (list R) :=
  map (fun j => map (fun r => nth j r 0) t) (seq 0 m).

(** [extremal_factor] (_2dplots.py:125-126, 134-137). *)
Definition extremal_factor (t : list (list R)) : R := Rmax (Rabs (maximum (concat t))) (Rabs (minimum (concat t))).

(** [_imshow_factors_2d] (_2dplots.py:30-64): the lines of the picture from below, and the
    number in the box for missing values. *)
Record image := { i_lines : list (list R); i_box : option R }.
Definition imshow_factors (m : nat) (t : list (list R)) (nan_factor : R) : image :=
  {| i_lines := transposed m t;
     i_box := if Rltb (1 / 10000) (Rabs nan_factor) then Some nan_factor else None |}.

(** [plot_marginal] (_2dplots.py:168-208); for [axis = 0] the tables are transposed. [d_y] and
    [d_p] are the targets and the predictions, if there are any. *)
Record marginal := { g_smoothed : list R; g_others : list (list R); g_background : list (list R); g_axis : axis }.
Definition filled (w : R) : R := if Reqb w 0 then 1 else w.
Definition marginal_value (w x : list R) : R := ln (sumR (map2 Rmult w (map exp x)) / sumR w).
Definition plot_marginal (fuel : nat) (weights smoothed deviations : list (list R)) (yp : option (list (list R) * list (list R))) : option marginal :=
  let f t := map2 marginal_value weights t in
  let others := match yp with Some (y, p) => [f p; f y] | None => [] end in
  let all := f smoothed ++ f deviations ++ concat others ++ concat smoothed in
  match get_y_axis fuel (minimum all :: maximum all :: f smoothed) None with
  | Some a => Some {| g_smoothed := f smoothed;
                      g_others := match yp with Some _ => others | None => [f deviations] end;
                      g_background := smoothed; g_axis := a |}
  | None => None
  end.

(** [plot_factor_2d] (_2dplots.py:88-219) for [n] and [m] bins; [yp]: targets, predictions and
    deviations of [prepare_plots], if there are any. [p_marginals] is [None] if there are
    no finite samples. [w1] is a view of the weights recorded by the observer, so that the
    replacement of zeros (_2dplots.py:170) changes them: [p_weights]. *)
Record plot := { p_deviations : image; p_smoothed : image; p_limits : R * R;
                 p_marginals : option (marginal * marginal); p_weights : list R }.
Definition plot_factor_2d (fuel n m : nat) (unfitted smoothed weights : list R) (yp : option (list R * list R * list R)) : option plot :=
  let factors := match yp with Some (_, _, d) => d | None => unfitted end in
  let tables := match yp with
                | Some (y, p, _) => match reshaped n m y, reshaped n m p with
                                    | Some y2d, Some p2d => Some (Some (y2d, p2d))
                                    | _, _ => None
                                    end
                | None => Some None
                end in
  match reshaped n m factors, reshaped n m smoothed, tables with
  | Some factors2d, Some smoothed2d, Some yp2d =>
      let e := if Nat.eqb (n * m) 0 then 1 else extremal_factor smoothed2d in
      let deviation_image := imshow_factors m factors2d (last unfitted 0) in
      let smoothed_image := imshow_factors m smoothed2d (last smoothed 0) in
      let plotted g w := Some {| p_deviations := deviation_image; p_smoothed := smoothed_image; p_limits := (- e, e); p_marginals := g; p_weights := w |} in
      if Nat.eqb n 0 then plotted None weights
      else
        match reshaped n m (map filled (removelast weights) ++ [last weights 0]) with
        | Some w1 =>
            let t := transposed m in
            match plot_marginal fuel w1 smoothed2d factors2d yp2d,
                  plot_marginal fuel (t w1) (t smoothed2d) (t factors2d) (option_map (fun q => (t (fst q), t (snd q))) yp2d) with
            | Some first, Some second => plotted (Some (first, second)) (map filled (removelast weights) ++ [last weights 0])
            | _, _ => None
            end
        | None => None
        end
  | _, _, _ => None
  end.
