(** Model of the dispersion estimator CBNBinomC (nbinom.py). *)
From Coq Require Import List Bool Reals.
From Verif.Model Require Import Train.
Import ListNotations.
Local Open Scope R_scope.

(** [np.linspace(start, stop, num)] and [np.logspace] (base 10). *)
Definition linspace (start stop : R) (num : nat) : list R :=
  match num with
  | O => []
  | S O => [start]
  | _ => map (fun i => start + INR i * ((stop - start) / INR (num - 1))) (seq 0 num)
  end.
Definition logspace (start stop : R) (num : nat) : list R := map (Rpower 10) (linspace start stop num).

(** [get_new_c_link_for_iteration] (nbinom.py:161-167). *)
Definition new_c_links (iteration n_steps : nat) : list R :=
  let steps := logspace (-3) (1 / INR iteration) (Nat.div n_steps iteration) in
  map Ropp (rev steps) ++ 0 :: steps.

Section Loss.
(** [math.lgamma]; [None] is a value that is not finite (or a domain error,
    which numba turns into infinity). *)
Variable lgamma : R -> option R.

Definition log_of (x : R) : option R := if Rltb 0 x then Some (ln x) else None.

(** [nbinom_log_pmf] (nbinom.py:171-176). *)
Definition nbinom_log_pmf (x n p : R) : option R :=
  match lgamma (n + x), lgamma (x + 1), lgamma n, log_of p, log_of (1 - p) with
  | Some l1, Some l2, Some l3, Some lp, Some lq => Some (l1 - l2 - l3 + n * lp + x * lq)
  | _, _, _, _, _ => None
  end.

(** The parameters of the distribution (nbinom.py:186-187, 212-213). *)
Definition nb_p (mu c : R) : R := Rmin (1 / (1 + c * mu)) (1 - 1 / 100000000).
Definition nb_n (mu c : R) : R := mu * nb_p mu c / (1 - nb_p mu c).

(** One sample: target, mean prediction, current prediction of the dispersion in
    link space and bin number of the feature. *)
Record crow := { c_y : R; c_mu : R; c_link : R; c_bin : nat }.

(** Loss of one sample for a changed prediction (nbinom.py:211-222). *)
Definition sigmoid (x : R) : R := 1 / (1 + exp (- x)).
Definition sample_loss (gamma new_c : R) (r : crow) : R :=
  let c := sigmoid (new_c + c_link r) in
  match nbinom_log_pmf (c_y r) (nb_n (c_mu r) c) (nb_p (c_mu r) c) with
  | Some l => - l + gamma * Rabs c
  | None => 400 + gamma * Rabs c
  end.

(** [binned_loss_nbinom_c] (nbinom.py:200-224) of one bin. *)
Definition bin_rows (rows : list crow) (j : nat) : list crow := filter (fun r => Nat.eqb (c_bin r) j) rows.
Definition bin_loss (rows : list crow) (gamma : R) (j : nat) (new_c : R) : R :=
  sumR (map (sample_loss gamma new_c) (bin_rows rows j)).

(** [np.argmin]: the first of the smallest values. *)
Fixpoint argmin_from (best : nat) (v : R) (i : nat) (l : list R) : nat :=
  match l with
  | [] => best
  | x :: r => if Rltb x v then argmin_from i x (S i) r else argmin_from best v (S i) r
  end.
Definition argmin (l : list R) : nat := match l with [] => 0%nat | x :: r => argmin_from 0 x 1 r end.

(** [bayes_result] (nbinom.py:250-261): the losses are finite, so every weight is. *)
Definition max_of (l : list R) : R := match l with [] => 0 | x :: r => fold_left Rmax r x end.
Definition softmax (loss : list R) : list R :=
  let l := map Ropp loss in
  let m := max_of l in
  let e := map (fun x => exp (x - m)) l in
  map (fun x => x / sumR e) e.
Definition bayes_bin (loss new_c : list R) : R := sumR (map2 Rmult (softmax loss) new_c).

(** [calc_parameters_nbinom_c] (nbinom.py:264-273). *)
Definition calc_parameters_nbinom_c (rows : list crow) (minlength : nat) (gamma : R) (bayes : bool)
    (new_c : list R) : list R :=
  map (fun j => let loss := map (bin_loss rows gamma j) new_c in
                if bayes then bayes_bin loss new_c else nth (argmin loss) new_c 0) (seq 0 minlength).

(** [calc_parameters] (nbinom.py:111-130): estimate and uncertainty per bin;
    [iteration] counts from 1 ([self.iteration_ + 1]). *)
Definition calc_parameters (rows : list crow) (n_bins : nat) (gamma : R) (bayes : bool) (n_steps iteration : nat)
  : list R * list R :=
  (calc_parameters_nbinom_c rows n_bins gamma bayes (new_c_links iteration n_steps),
   map (fun j => 1 / sqrt (INR (Nat.max 1 (length (bin_rows rows j))))) (seq 0 n_bins)).

(** [loss_nbinom_c] (nbinom.py:183-196): the mean loss of predictions [c]. *)
Definition loss_nbinom_c (rows : list (R * R * R)) (gamma : R) : R :=
  mean (map (fun r => let '(y, mu, c) := r in
                      match nbinom_log_pmf y (nb_n mu c) (nb_p mu c) with
                      | Some l => - l
                      | None => 400
                      end + gamma * Rabs c) rows).
End Loss.
