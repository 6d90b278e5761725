(** Model of the data offered to observers for plots: [prepare_plots] of base.py and of
    the quantile estimators in generic_loss.py. Numbers are reals. *)
From Coq Require Import List Bool Reals.
From Verif.Model Require Import Num BinarySearch Train Estimators Quantile.
Import ListNotations.
Local Open Scope R_scope.

(** The attributes mean_dev, y, prediction, y_finite and prediction_finite of a feature. *)
Record plot_data := { d_dev : list R; d_y : list R; d_pred : list R; d_y_finite : R; d_pred_finite : R }.

(** base.py:803-810, generic_loss.py:304-311; [identity]: the estimator has the identity
    link. *)
Definition tiny : R := / 10 ^ 12.
Definition deviation (identity : bool) (p t : R) : R := if identity then p - t else ln (p + tiny) - ln (t + tiny).
Definition relative (identity : bool) (v m : R) : R := if identity then v - m else ln (v / m + tiny).
Definition plot_values (identity : bool) (target prediction : list R) (y_finite prediction_finite : R) : plot_data :=
  {| d_dev := map2 (deviation identity) prediction target;
     d_y := map (fun v => relative identity v y_finite) target;
     d_pred := map (fun v => relative identity v prediction_finite) prediction;
     d_y_finite := y_finite; d_pred_finite := prediction_finite |}.

(** [prepare_plots] (base.py:778-815) for one feature with [n] finite bins and the bins
    [lex] of the rows. Simplified: divisions by zero are those of Coq's reals. *)
Definition prepare_plots (identity : bool) (lex : list nat) (n : nat) (y w pred : list R) : plot_data :=
  let sum_w := bincounts lex w (S n) in
  let sum_yw := bincounts lex (map2 Rmult w y) (S n) in
  let sum_pw := bincounts lex (map2 Rmult w pred) (S n) in
  let smoothed := map2 (fun s v => (s + 1) / (v + 1)) in
  let y_finite := if Nat.ltb 1 (S n) then sumR (removelast sum_yw) / sumR (removelast sum_w) else mean y in
  let prediction_finite := if Nat.ltb 1 (S n) then sumR (removelast sum_pw) / sumR (removelast sum_w) else mean pred in
  plot_values identity (smoothed sum_yw sum_w) (smoothed sum_pw sum_w) y_finite prediction_finite.

(** [prepare_plots] of the quantile estimators (generic_loss.py:263-316); [None]: an
    exception in the quantile. [groupby] and [set] give the bins in ascending order.
    There is at least one row. *)
Section QuantilePlots.
Variable sort : list qrow -> list qrow.
Definition rows_in (b : nat) (lex : list nat) (rows : list qrow) : list qrow :=
  map snd (filter (fun p => Nat.eqb (fst p) b) (combine lex rows)).
Definition occupied (lex : list nat) (b : nat) : bool := existsb (Nat.eqb b) lex.
Definition quantile_plots (identity : bool) (quantile : R) (lex : list nat) (n : nat) (y w pred : list R) : option plot_data :=
  let rows := combine y w in
  let all_bins := seq 0 (S (list_max lex)) in
  match map_opt (fun b => continuous_quantile sort (rows_in b lex rows) quantile) (filter (occupied lex) all_bins),
        continuous_quantile sort rows quantile with
  | Some groups, Some y_finite =>
      let sum_w := bincounts lex w (S (list_max lex)) in
      let sum_pw := bincounts lex (map2 Rmult w pred) (S (list_max lex)) in
      let prediction := map2 (fun p v => if Reqb v 0 then 1 else p / v) sum_pw sum_w in
      let target := fold_left (fun l i => insert_at i 1 l) (filter (fun b => negb (occupied lex b)) all_bins) groups in
      let padded l := if Nat.eqb (length l + 1) (S n) then l ++ [1] else l in
      Some (plot_values identity (padded target) (padded prediction) y_finite (sumR sum_pw / sumR sum_w))
  | _, _ => None
  end.
End QuantilePlots.
