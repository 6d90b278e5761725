(** C72, C73: the dispersion of negative binomial distributions. *)
From Coq Require Import List Bool Reals.
From Verif.Model Require Import Train Dispersion.
From Verif.Spec Require Import DispersionSpec.
From Verif.Proofs Require Import DispersionFacts.
Import ListNotations.
Local Open Scope R_scope.

(** ** C72 *)
(** The candidates of an iteration: no change is one of them, they come in pairs
    of opposite sign, and they shrink from iteration to iteration. *)
Theorem C72_candidates : forall it n, (1 <= it)%nat ->
  In 0 (new_c_links it n) /\
  forall c, In c (new_c_links it n) -> Rabs c <= Rpower 10 (1 / INR it) /\ In (- c) (new_c_links it n).
Proof. exact candidates. Qed.
Print Assumptions C72_candidates.

(** They are the documented logarithmic grid. *)
Theorem C72_grid : forall it n c, (1 <= it)%nat -> (2 * it <= n)%nat ->
  In c (new_c_links it n) <-> c = 0 \/ power_grid (-3) (1 / INR it) (Nat.div n it) (Rabs c).
Proof. exact candidates_grid. Qed.
Print Assumptions C72_grid.

(** Without the Bayesian average each bin gets a candidate with the smallest
    loss of the rows of the bin. *)
Theorem C72_best : forall lgamma rows nb gamma n it j c,
  nth_error (fst (calc_parameters lgamma rows nb gamma false n it)) j = Some c ->
  best_of (fun c' => sumR (map (sample_loss lgamma gamma c') (filter (fun r => Nat.eqb (c_bin r) j) rows)))
    (new_c_links it n) c.
Proof. exact estimate_best. Qed.
Print Assumptions C72_best.

(** So a step with the estimates of the bins never increases the total loss. *)
Theorem C72_no_worse : forall lgamma rows nb gamma n it, (1 <= it)%nat ->
  (forall r, In r rows -> (c_bin r < nb)%nat) ->
  let est := fst (calc_parameters lgamma rows nb gamma false n it) in
  sumR (map (fun r => sample_loss lgamma gamma (nth (c_bin r) est 0) r) rows) <=
  sumR (map (sample_loss lgamma gamma 0) rows).
Proof. exact step_no_worse. Qed.
Print Assumptions C72_no_worse.

(** The same for the mean loss that is reported. *)
Theorem C72_reported_loss : forall lgamma rows nb gamma n it, (1 <= it)%nat -> rows <> [] ->
  (forall r, In r rows -> (c_bin r < nb)%nat) ->
  let est := fst (calc_parameters lgamma rows nb gamma false n it) in
  loss_nbinom_c lgamma (map (fun r => (c_y r, c_mu r, 1 / (1 + exp (- (nth (c_bin r) est 0 + c_link r))))) rows) gamma <=
  loss_nbinom_c lgamma (map (fun r => (c_y r, c_mu r, 1 / (1 + exp (- c_link r)))) rows) gamma.
Proof. exact reported_no_worse. Qed.
Print Assumptions C72_reported_loss.

(** The uncertainty of a bin: one over the root of the number of rows, 1 without rows. *)
Theorem C72_uncertainty : forall lgamma rows nb gamma bayes n it j u,
  nth_error (snd (calc_parameters lgamma rows nb gamma bayes n it)) j = Some u ->
  0 < u <= 1 /\
  (filter (fun r => Nat.eqb (c_bin r) j) rows = [] -> u = 1) /\
  (filter (fun r => Nat.eqb (c_bin r) j) rows <> [] ->
   u * u * INR (length (filter (fun r => Nat.eqb (c_bin r) j) rows)) = 1).
Proof. exact uncertainty_spec. Qed.
Print Assumptions C72_uncertainty.

(** From iteration [n_steps + 1] on nothing changes any more. *)
Theorem C72_frozen : forall lgamma rows nb gamma bayes n it, (n < it)%nat ->
  forall c, In c (fst (calc_parameters lgamma rows nb gamma bayes n it)) -> c = 0.
Proof. exact frozen. Qed.
Print Assumptions C72_frozen.

(** The Bayesian average stays within the range of the candidates and leaves
    bins without data at the neutral value. *)
Theorem C72_bayes_bounds : forall lgamma rows nb gamma n it j c, (1 <= it)%nat ->
  nth_error (fst (calc_parameters lgamma rows nb gamma true n it)) j = Some c -> Rabs c <= Rpower 10 (1 / INR it).
Proof. exact bayes_bounds. Qed.
Print Assumptions C72_bayes_bounds.

Theorem C72_bayes_empty : forall lgamma rows nb gamma n it j c,
  filter (fun r => Nat.eqb (c_bin r) j) rows = [] ->
  nth_error (fst (calc_parameters lgamma rows nb gamma true n it)) j = Some c -> c = 0.
Proof. exact bayes_empty. Qed.
Print Assumptions C72_bayes_empty.

(** Without the average a bin without data does not stay neutral: it gets the
    most negative candidate. *)
Theorem C72_empty_bin_always_refuted : forall lgamma rows nb gamma n it j c, (1 <= it)%nat ->
  filter (fun r => Nat.eqb (c_bin r) j) rows = [] ->
  nth_error (fst (calc_parameters lgamma rows nb gamma false n it)) j = Some c ->
  ((it <= n)%nat -> c < 0) /\ ((2 * it <= n)%nat -> c = - Rpower 10 (1 / INR it)).
Proof. exact ml_empty. Qed.
Print Assumptions C72_empty_bin_always_refuted.

Theorem C72_empty_bin_refuted : exists c,
  nth_error (fst (calc_parameters ex_lgamma ex_rows 2 0 false 15 1)) 1 = Some c /\
  filter (fun r => Nat.eqb (c_bin r) 1) ex_rows = [] /\ c = - Rpower 10 (1 / INR 1) /\ c <> 0.
Proof. exact ex_empty. Qed.
Print Assumptions C72_empty_bin_refuted.

Example c72_candidates : length (new_c_links 4 15) = 7%nat /\ (forall r, In r ex_rows -> (c_bin r < 2)%nat).
Proof. exact ex_candidates. Qed.

(** ** C73 *)
(** The parameters are those of a negative binomial distribution with the
    predicted mean and variance [mu + c mu^2], kept above [mu]. *)
Theorem C73_parameters : forall mu c, 0 <= mu -> 0 <= c -> 0 < nb_p mu c < 1.
Proof. exact nb_p_range. Qed.
Print Assumptions C73_parameters.

Theorem C73_moments : forall mu c, 0 <= mu -> 0 <= c ->
  nb_mean (nb_n mu c) (nb_p mu c) = mu /\
  nb_variance (nb_n mu c) (nb_p mu c) = Rmax (mu + c * mu * mu) (mu / (1 - 1 / 100000000)).
Proof. exact nb_moments. Qed.
Print Assumptions C73_moments.

(** The loss of a row is its penalised negative log-likelihood under that
    distribution. *)
Theorem C73_loss : forall lgamma lg gamma new_c r,
  (forall x, 0 < x -> lgamma x = Some (lg x)) -> 0 <= c_y r -> 0 < c_mu r ->
  let c := 1 / (1 + exp (- (new_c + c_link r))) in
  sample_loss lgamma gamma new_c r = penalised_nll lg gamma (c_y r) (nb_n (c_mu r) c) (nb_p (c_mu r) c) c.
Proof. exact sample_loss_spec. Qed.
Print Assumptions C73_loss.

(** Rows whose likelihood is not finite, such as those with mean prediction 0, have the
    loss 400 plus the penalty. *)
Theorem C73_invalid_loss : forall lgamma gamma new_c r,
  let c := 1 / (1 + exp (- (new_c + c_link r))) in
  nbinom_log_pmf lgamma (c_y r) (nb_n (c_mu r) c) (nb_p (c_mu r) c) = None ->
  sample_loss lgamma gamma new_c r = 400 + gamma * c.
Proof. exact sample_loss_invalid. Qed.
Print Assumptions C73_invalid_loss.
Theorem C73_zero_mean : forall lgamma gamma new_c r, lgamma 0 = None -> c_mu r = 0 ->
  sample_loss lgamma gamma new_c r = 400 + gamma * (1 / (1 + exp (- (new_c + c_link r)))).
Proof. exact zero_mean_loss. Qed.
Print Assumptions C73_zero_mean.

(** The reported loss is the mean of the losses of the rows. *)
Theorem C73_reported_loss : forall lgamma gamma (change : crow -> R) rows,
  loss_nbinom_c lgamma (map (fun r => (c_y r, c_mu r, 1 / (1 + exp (- (change r + c_link r))))) rows) gamma =
  sumR (map (fun r => sample_loss lgamma gamma (change r) r) rows) /
  INR (length (map (fun r => sample_loss lgamma gamma (change r) r) rows)).
Proof. exact loss_consistent. Qed.
Print Assumptions C73_reported_loss.

Example c73_rows : (forall x, 0 < x -> ex_lgamma x = Some ((fun _ => 0) x)) /\
  Forall (fun r => 0 <= c_y r /\ 0 < c_mu r) ex_rows.
Proof. exact ex_loss. Qed.
