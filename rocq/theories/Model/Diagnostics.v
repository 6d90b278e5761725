(** Model of the diagnostics: the diagram of predictions against targets
    (observers.py:193-230) with its helpers in utils.py, the smeared cdf values
    (utils.py:1084-1132) and the plotting observer (observers.py:103-190). *)
From Coq Require Import ZArith List Bool Reals.
From Verif.Model Require Import Train Quantile Dispersion.
Import ListNotations.
Local Open Scope R_scope.

Definition max_of (l : list R) : option R := match l with [] => None | x :: r => Some (fold_left Rmax r x) end.

(** [calc_linear_bins] (utils.py:379-382): boundaries and centres; [None]: the
    ValueError of numpy for an empty array. *)
Definition calc_linear_bins (x : list R) (nbins : nat) : option (list R * list R) :=
  match min_of x, max_of x with
  | Some minx, Some maxx =>
      let b := linspace minx maxx (nbins + 1) in
      Some (b, map2 (fun u l => / 2 * (u + l)) (tl b) (removelast b))
  | _, _ => None
  end.

(** [np.digitize] for boundaries that do not fall: the number of boundaries up to the
    value. *)
Definition np_digitize (bins : list R) (v : R) : Z := Z.of_nat (length (filter (fun b => Rleb b v) bins)).
(** [digitize] (utils.py:426-429). *)
Definition digitize (bins : list R) (v : R) : Z :=
  match max_of bins with
  | Some m => if Rleb m v then (np_digitize bins v - 1)%Z else np_digitize bins v
  | None => np_digitize bins v
  end.

(** [_weighted_mean_of_dataframe] (utils.py:632-634); [None]: division by zero. *)
Definition weighted_mean_of (rows : list qrow) : option R :=
  let sum_of_weights := sumR (map snd rows) in
  if Reqb sum_of_weights 0 then None else Some (sumR (map (fun r => fst r * snd r) rows) / sum_of_weights).

(** [quantile] of a pandas group: linear between the sorted values. *)
Definition interpolated_quantile (sorted : list R) (quantile : R) : option R :=
  match sorted with
  | [] => None
  | _ =>
      let h := quantile * INR (length sorted - 1) in
      let i := Z.to_nat (Int_part h) in
      let low := nth i sorted 0 in
      Some (low + (nth (S i) sorted low - low) * frac_part h)
  end.

Definition lower_1_sigma : R := (1 - 6827 / 10000) / 2.
Definition lower_2_sigma : R := (1 - 9545 / 10000) / 2.

(** What is calculated for a bin: mean, median, count and the distances of the four
    quantiles from the median; [None] is NaN. *)
Record bin_stats := { b_mean : option R; b_median : option R; b_count : R; b_errors : list (option R) }.
Definition minus_opt (a b : option R) : option R :=
  match a, b with Some x, Some y => Some (x - y) | _, _ => None end.
Definition four_quantiles : list R := [lower_1_sigma; 1 - lower_1_sigma; lower_2_sigma; 1 - lower_2_sigma].

Section Sorting.
Variable sort : list qrow -> list qrow.

(** One group of [_calc_means_medians_evenly_weighted] (utils.py:521-533); the median of
    pandas is its quantile 1/2. *)
Definition even_stats (rows : list qrow) : bin_stats :=
  let q := interpolated_quantile (map fst (sort rows)) in
  {| b_mean := match rows with [] => None | _ => Some (sumR (map fst rows) / INR (length rows)) end;
     b_median := q (1 / 2); b_count := INR (length rows);
     b_errors := map (fun p => minus_opt (q p) (q (1 / 2))) four_quantiles |}.
(** One group of [_calc_means_medians_with_weights] (utils.py:553-567). *)
Definition weighted_stats (rows : list qrow) : bin_stats :=
  {| b_mean := weighted_mean_of rows; b_median := weighted_median sort rows; b_count := sumR (map snd rows);
     b_errors := map (fun p => minus_opt (weighted_quantile sort p rows) (weighted_median sort rows)) four_quantiles |}.

(** [len(np.unique(weights)) == 1]. *)
Definition one_weight (weights : list R) : bool :=
  match weights with [] => false | w :: r => forallb (Reqb w) r end.
(** [calc_means_medians] (utils.py:497-500) with weights: one entry for each bin number
    that occurs, ascending. *)
Definition calc_means_medians (bins : list Z) (rows : list qrow) : list (Z * bin_stats) :=
  map (fun k => (k, (if one_weight (map snd rows) then even_stats else weighted_stats) (group_rows k bins rows)))
      (group_keys bins).

(** [calc_in_sample_histograms] (observers.py:218-230): means by bin number, centres
    of the bins whose mean is not NaN, errors ([None]: left out), counts. *)
Record histogram := { h_means : list (Z * option R); h_centres : list R;
                      h_errors : option (list (Z * list (option R))); h_counts : list (Z * R) }.
Definition has_mean (means : list (Z * option R)) (k : Z) : bool :=
  existsb (fun e => Z.eqb (fst e) k && match snd e with Some _ => true | None => false end) means.
Fixpoint keep (flags : list bool) (l : list R) : list R :=
  match flags, l with
  | b :: bs, x :: r => if b then x :: keep bs r else keep bs r
  | _, _ => []
  end.
Definition in_sample_histograms (y pred weights : list R) (quantile : option R) : option histogram :=
  let nbins := 100%nat in
  match calc_linear_bins pred nbins with
  | None => None
  | Some (boundaries, centres) =>
      let bins := map (digitize boundaries) pred in
      let rows := combine y weights in
      let stats := calc_means_medians bins rows in
      let means := match quantile with
                   | Some q => calc_weighted_quantile sort bins rows q
                   | None => map (fun e => (fst e, b_mean (snd e))) stats
                   end in
      let errors := match quantile with
                    | Some _ => None
                    | None => Some (map (fun e => (fst e, b_errors (snd e))) stats)
                    end in
      Some {| h_means := means;
              h_centres := keep (map (fun k => has_mean means (Z.of_nat k)) (seq 1 nbins)) centres;
              h_errors := if forallb (fun v => Reqb v 0 || Reqb v 1) y then None else errors;
              h_counts := map (fun e => (fst e, b_count (snd e))) stats |}
  end.
End Sorting.

(** [smear_discrete_cdftruth] (utils.py:1102-1108) for the number [u] drawn from [0, 1];
    the version for arrays (utils.py:1129-1132) is the same for each entry. *)
Definition smear (cdf : Z -> R) (y : Z) (u : R) : R :=
  let cdf_high := cdf y in
  let cdf_low := if Z.leb 1 y then cdf (y - 1)%Z else 0 in
  cdf_low + u * (cdf_high - cdf_low).

(** ** The plotting observer *)
Section Observer.
Variable cfg : settings.
Variable features : list feature.
Variable calc : nat -> nat -> preds -> list R.
Variable smooth : nat -> nat -> preds -> list R -> nat -> option R.
Variable calib : nat -> list R -> list R.
Variable rate : nat -> nat -> R.
Variable loss : preds -> R.

(** The calls of [observe_iterations] (base.py:730, 768): at the start of each pass of
    the loop with the number of passes before, and with -1 after the loop. *)
Fixpoint observe_calls (fuel : nat) (initial : R) (st : state) : list (Z * state) :=
  if continues cfg st then
    match fuel with
    | O => []
    | S k => (Z.of_nat (t_iter st), st) ::
             match iteration cfg features calc smooth calib rate loss initial st with
             | Raise _ => []
             | Ok st' => observe_calls k initial st'
             end
    end
  else if forallb (fun s => match s_agg s with Some _ => true | None => false end) (t_feats st)
  then [((-1)%Z, st)] else [].

(** [PlottingObserver] (observers.py:103-156). [r_state]: the state whose features it
    keeps. The predictions passed are those before factors of a diverging pass are
    taken back; after the loop they are those of the state. *)
Record record := { r_loss : list R; r_change : list R; r_state : option state }.
Definition new_record : record := {| r_loss := []; r_change := []; r_state := None |}.
Definition observe (wanted : Z) (r : record) (call : Z * state) : record :=
  let '(it, st) := call in
  let logs := (Z.leb it wanted && negb (Z.eqb it (-1))) || Z.eqb wanted (-1) in
  {| r_loss := if logs then r_loss r ++ [t_loss st] else r_loss r;
     r_change := if logs && negb (Z.eqb it 0) then r_change r ++ [t_delta st] else r_change r;
     r_state := if Z.eqb it wanted then Some st else r_state r |}.
Definition observed (wanted : Z) (fuel : nat) (p : preds) : record :=
  fold_left (observe wanted) (observe_calls fuel (loss p) (init_state features loss p)) new_record.
End Observer.
