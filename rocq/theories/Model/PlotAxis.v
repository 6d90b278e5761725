(** Model of the vertical axis of the plots of one-dimensional factors
    (plots/_1dplots.py). Simplified: all values are finite. *)
From Coq Require Import ZArith QArith Qround List Bool Reals.
From Verif.Model Require Import Num Train LexBins.
Import ListNotations.
Local Open Scope R_scope.

(** [np.min], [np.max], [np.floor] and [np.ceil]. *)
Definition maximum (l : list R) : R := match l with [] => 0 | x :: r => fold_left Rmax r x end.
Definition minimum (l : list R) : R := match l with [] => 0 | x :: r => fold_left Rmin r x end.
Definition floor_real (x : R) : Z := Int_part x.
Definition ceil_real (x : R) : Z := (- Int_part (- x))%Z.

(** [_get_optimal_number_of_ticks] (_1dplots.py:38-53); [None]: the loop has not ended
    after [fuel] passes. *)
Fixpoint scaled_down (fuel : nat) (distance : Q) : option Q :=
  if Qle_bool distance 20 then Some distance
  else match fuel with
       | O => None
       | S k => scaled_down k (distance / 10)%Q
       end.
Fixpoint first_ticks (distance : Q) (candidates : list Q) : Z :=
  match candidates with
  | [] => 21
  | n :: r => let n_ticks := Qfloor (distance * n)%Q in
              if (10 <? n_ticks)%Z && (n_ticks <=? 20)%Z then (n_ticks + 1)%Z else first_ticks distance r
  end.
Definition number_of_ticks (fuel : nat) (distance : Q) : option Z :=
  if negb (Qle_bool 1 distance) then Some 21%Z
  else match scaled_down fuel distance with
       | Some d => Some (first_ticks d [20; 10; 5; 4; 2; 1]%Q)
       | None => None
       end.

(** [np.linspace] between whole numbers, and [_format_tick] (_1dplots.py:9-20): the
    number that is written at a tick. *)
Definition tick_positions (lo hi n : Z) : list Q :=
  map (fun k => (inject_Z lo + inject_Z (Z.of_nat k) * (inject_Z (hi - lo) / inject_Z (n - 1)))%Q) (seq 0 (Z.to_nat n)).
Definition flt_Q (a b : Q) : bool := negb (Qle_bool b a).
Definition format_tick (tick : Q) : Q :=
  let r := inject_Z (np_round (Fin tick)) in
  if flt_Q (tick - (1 # 100))%Q r && flt_Q r (tick + (1 # 100))%Q then r
  else (inject_Z (np_round (Fin (tick * 100)%Q)) / 100)%Q.

(** [_get_y_axis] (_1dplots.py:56-79). *)
Record axis := { a_low : Z; a_high : Z; a_ticks : list Q; a_labels : list Q }.
Definition y_limits (factors : list R) (uncertainties : option (list R * list R)) : R * R :=
  match removelast factors with
  | [] => (last factors 0 - 1 / 2, last factors 0 + 1 / 2)
  | front =>
      match uncertainties with
      | Some (lower, upper) =>
          (Rmin (minimum (map2 Rminus front (removelast lower))) (last factors 0),
           Rmax (maximum (map2 Rplus front (removelast upper))) (last factors 0))
      | None => (minimum factors, maximum factors)
      end
  end.
Definition get_y_axis (fuel : nat) (factors : list R) (uncertainties : option (list R * list R)) : option axis :=
  let low := floor_real (fst (y_limits factors uncertainties)) in
  let high := ceil_real (snd (y_limits factors uncertainties)) in
  match number_of_ticks fuel (inject_Z (high - low)) with
  | Some n => let ticks := tick_positions low high n in
              Some {| a_low := low; a_high := high; a_ticks := ticks; a_labels := map format_tick ticks |}
  | None => None
  end.

(** The axis of [plot_factor_1d] (_1dplots.py:266-284): [factors], [smoothed] and
    [uncertainties] as transformed for the link; [others] are the targets and the
    predictions if they are drawn, too. *)
Definition plot_axis (fuel : nat) (include_errors : bool) (factors smoothed others lower upper : list R) : option axis :=
  let all := factors ++ smoothed ++ others in
  let minmax := [minimum all; maximum all] in
  let '(f, u) :=
    match factors with
    | _ :: _ :: rest => (minmax ++ rest, (lower, upper))
    | _ => (minmax, (lower ++ lower, upper ++ upper))
    end in
  get_y_axis fuel f (if include_errors then Some u else None).

(** Which of the bins are drawn (_1dplots.py:287-293): the bin for missing values only
    if the column is declared to have missing values, or if there is no other. *)
Definition drawn {A} (has_missing : bool) (l : list A) : list A :=
  if has_missing then l
  else match l with
       | _ :: _ :: _ => removelast l
       | _ => l
       end.
