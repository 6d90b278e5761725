(** Properties C79 to C82 of the estimator's methods on data frames. The learner is
    arbitrary: [train] and [score] are any functions. *)
From Coq Require Import List Bool Reals String.
From Verif.Model Require Import Num LexBins Train Link Frames Lifecycle.
From Verif.Spec Require Import LifecycleSpec.
From Verif.Proofs Require Import LifecycleFacts.
Import ListNotations.
Local Open Scope R_scope.

(** C79: [fit_transform] appends the in-sample predictions as last column, [transform]
    the values of [predict]; all other columns stay. *)
Theorem C79_fit_transform_partial : forall (M : Type) train (e : estimator M) X y R0 e' X', e_kind M e <> DispersionModel ->
  fit_transform M train e X y = (LOk R0, e', X') ->
  exists o ws cols m scores, e_output M e = Some o /\ ~ In o (columns_of X) /\
    fit_columns M e (groups_for M e X) X = Some (ws, cols) /\ train ws cols y = Some (m, scores) /\
    e_model M e' = Some m /\
    R0 = with_column X o (map (fun s => Some (unlink_func (link_of (e_kind M e)) s)) scores) /\ X' = R0.
Proof. exact @fit_transform_adds. Qed.
Print Assumptions C79_fit_transform_partial.
Theorem C79_transform_partial : forall (M : Type) score (e : estimator M) X n R0 X', e_kind M e <> DispersionModel ->
  transform M score e X n = (LOk R0, X') ->
  exists o p, e_output M e = Some o /\ ~ In o (columns_of X) /\ fst (predict M score e X n) = LOk p /\
    R0 = with_column X o p /\ X' = R0.
Proof. exact @transform_adds. Qed.
Print Assumptions C79_transform_partial.
(** It works whenever the name is usable and new and [predict] works. *)
Theorem C79_transform_works : forall (M : Type) score (e : estimator M) X n o p, e_output M e = Some o -> named o -> ~ In o (columns_of X) ->
  fst (predict M score e X n) = LOk p -> exists R0, fst (transform M score e X n) = LOk R0.
Proof. exact @transform_works. Qed.
Print Assumptions C79_transform_works.
(** Without an output column, or if it exists, nothing happens but an error; hence a
    second [transform] of the same frame fails. *)
Theorem C79_guard : forall (M : Type) train score (e : estimator M) X,
  (e_output M e = None \/ exists o, e_output M e = Some o /\ In o (columns_of X)) ->
  (forall y, exists err, fit_transform M train e X y = (LErr err, e, X)) /\
  (forall n, exists err, transform M score e X n = (LErr err, X)).
Proof. exact @output_guard. Qed.
Print Assumptions C79_guard.
Theorem C79_twice : forall (M : Type) score (e : estimator M) X n n' R0 X', transform M score e X n = (LOk R0, X') ->
  exists err, transform M score e X' n' = (LErr err, X').
Proof. exact (fun M => @transform_twice M (fun _ _ _ => None)). Qed.
Print Assumptions C79_twice.
(** [fit_transform] equals [fit] and [transform] for plain regressors, and for the
    additive model exactly if the column has no negative entries. *)
Theorem C79_agree_partial : forall (M : Type) train score (e : estimator M) X y R0 e' X' n l, reproduces train score ->
  e_kind M e = Regressor l -> fit_transform M train e X y = (LOk R0, e', X') ->
  fst (transform M score e' X n) = LOk R0.
Proof. exact @agree. Qed.
Print Assumptions C79_agree_partial.
Theorem C79_agree_additive_partial : forall (M : Type) train score (e : estimator M) X y R0 e' X' n, reproduces train score ->
  e_kind M e = LocPoisson -> fit_transform M train e X y = (LOk R0, e', X') ->
  (fst (transform M score e' X n) = LOk R0 <->
   forall o v s, In (o, v) R0 -> e_output M e = Some o -> In (Some s) v -> 0 <= s).
Proof. exact @agree_locpoisson. Qed.
Print Assumptions C79_agree_additive_partial.
Example c79_example : exists e', fit_transform _ copy_train (ex_est (Regressor Identity) (Some (LName "p")) None (Some [[LName "a"]])) (ex_X (-3) 5) [Some 1; Some 2] =
  (LOk (with_column (ex_X (-3) 5) (LName "p") [Some (-3); Some 1]), e', with_column (ex_X (-3) 5) (LName "p") [Some (-3); Some 1]).
Proof. exact ex_fit_transform. Qed.
Example c79_reproduces : reproduces copy_train copy_score.
Proof. exact copy_reproduces. Qed.
Theorem C79_additive_refuted : exists e X y R0 e' X' R1, reproduces copy_train copy_score /\ e_kind _ e = LocPoisson /\
  fit_transform (list column) copy_train e X y = (LOk R0, e', X') /\
  fst (transform _ copy_score e' X (List.length y)) = LOk R1 /\ R1 <> R0.
Proof. exact locpoisson_differs. Qed.
Print Assumptions C79_additive_refuted.
(** A classifier's [fit_transform] appends probabilities, its [transform] classes: the
    frames differ whenever there is a row. *)
Theorem C79_classifier_always_refuted : forall (M : Type) train score (e : estimator M) X y R0 e' X' n R1, reproduces train score ->
  e_kind M e = Classifier -> fit_transform M train e X y = (LOk R0, e', X') -> fst (transform M score e' X n) = LOk R1 ->
  forall o v, In (o, v) R0 -> e_output M e = Some o -> v <> [] -> R1 <> R0.
Proof. exact @classifier_differs. Qed.
Print Assumptions C79_classifier_always_refuted.
Example c79_classifier : exists e', fit_transform _ copy_train (ex_est Classifier (Some (LName "p")) None (Some [[LName "a"]])) (ex_X (-3) 5) [Some 1; Some 2] =
  (LOk (with_column (ex_X (-3) 5) (LName "p") [Some (unlink_func Logit (-3)); Some (unlink_func Logit 1)]), e',
   with_column (ex_X (-3) 5) (LName "p") [Some (unlink_func Logit (-3)); Some (unlink_func Logit 1)]).
Proof. exact ex_classifier. Qed.
(** [fit_transform] of the dispersion model and of the price model with external
    features never works; after an aborted [fit] the former uses the means of the aborted
    call. *)
Theorem C79_dispersion_always_refuted : forall (M : Type) train (e : estimator M) X y, e_kind M e = DispersionModel -> e_mu M e = None ->
  exists err, fst (fst (fit_transform M train e X y)) = LErr err.
Proof. exact @dispersion_fails. Qed.
Print Assumptions C79_dispersion_always_refuted.
Theorem C79_dispersion_fitted_always_refuted : forall (M : Type) train (e : estimator M) X y e' X', e_kind M e = DispersionModel ->
  fit M train e X y = (None, e', X') -> forall X2 y2, exists err, fst (fst (fit_transform M train e' X2 y2)) = LErr err.
Proof. exact @dispersion_fitted_fails. Qed.
Print Assumptions C79_dispersion_fitted_always_refuted.
Theorem C79_price_always_refuted : forall (M : Type) train (e : estimator M) X y, e_kind M e = PriceModel true ->
  exists err, fst (fst (fit_transform M train e X y)) = LErr err.
Proof. exact @price_fails. Qed.
Print Assumptions C79_price_always_refuted.
Theorem C79_stale_means_refuted : exists e X1 X2 y2 mu1 mu2 e1 X1' R0 e2 X2', e_kind _ e = DispersionModel /\
  fit (list column) copy_train e X1 [] = (Some Training, e1, X1') /\ get_column X1 (e_mean _ e) = Some mu1 /\
  get_column X2 (e_mean _ e) = Some mu2 /\ mu1 <> mu2 /\
  fit_transform _ copy_train e1 X2 y2 = (LOk R0, e2, X2') /\ (exists ws, e_model _ e2 = Some (mu1 :: ws)).
Proof. exact stale_mu. Qed.
Print Assumptions C79_stale_means_refuted.
(** The column name 0 counts as undefined. *)
Theorem C79_zero_name_refuted : exists e X n o p, e_output (list column) e = Some o /\ ~ In o (columns_of X) /\
  fst (predict _ copy_score e X n) = LOk p /\ fst (transform _ copy_score e X n) = LErr NotDefined.
Proof. exact falsy_output. Qed.
Print Assumptions C79_zero_name_refuted.

(** C80: the required columns are enough for [predict] and [fit], and each is needed by
    [fit]. *)
Theorem C80_predict : forall (M : Type) score (e : estimator M) g X n, e_groups M e = Some g ->
  fst (predict M score e (only (required_columns M e) X) n) = fst (predict M score e X n).
Proof. exact @predict_required. Qed.
Print Assumptions C80_predict.
Theorem C80_fit_partial : forall (M : Type) train (e : estimator M) g X y, e_groups M e = Some g -> e_kind M e <> DispersionModel ->
  fst (fit M train e (only (required_columns M e) X) y) = fst (fit M train e X y).
Proof. exact @fit_required. Qed.
Print Assumptions C80_fit_partial.
Theorem C80_needed : forall (M : Type) train (e : estimator M) g X y c, e_groups M e = Some g ->
  In c (required_columns M e) -> ~ In c (columns_of X) -> exists err, fst (fst (fit M train e X y)) = Some err.
Proof. exact @fit_needs. Qed.
Print Assumptions C80_needed.
Example c80_example :
  only (required_columns _ (ex_est (Regressor Log) (Some (LName "p")) None (Some [[LName "a"]]))) (ex_X 1 5) =
    [(LName "a", [Some 1; Some 1]); (LName "w", [Some 1; Some 2])] /\
  fst (fst (fit _ copy_train (ex_est (Regressor Log) (Some (LName "p")) None (Some [[LName "a"]])) (ex_X 1 5) [Some 1; Some 2])) = None.
Proof. exact ex_required_regressor. Qed.
(** The dispersion model does not list its column of means. *)
Theorem C80_dispersion_always_refuted : forall (M : Type) train (e : estimator M) g X y, e_kind M e = DispersionModel ->
  e_groups M e = Some g -> ~ In (e_mean M e) (required_columns M e) ->
  fst (fst (fit M train e (only (required_columns M e) X) y)) = Some MissingColumn.
Proof. exact @dispersion_required. Qed.
Print Assumptions C80_dispersion_always_refuted.
Example c80_dispersion : required_columns _ (ex_est DispersionModel (Some (LName "p")) None (Some [[LName "a"]])) = [LName "w"; LName "a"] /\
  fst (fst (fit _ copy_train (ex_est DispersionModel (Some (LName "p")) None (Some [[LName "a"]])) (ex_X 1 5) [Some 1; Some 2])) = None.
Proof. exact ex_required. Qed.

(** C45: without a list of features, [fit] makes one feature of every column but the
    prior and weight columns. *)
Theorem C45_fit_groups : forall (M : Type) train (e : estimator M) X y g, e_groups M e = None ->
  e_groups M (snd (fst (fit M train e X y))) = Some g ->
  forall c, In c g <-> exists n, c = [n] /\ In n (columns_of X) /\ e_prior M e <> Some n /\ e_weight M e <> Some n.
Proof. exact @fit_groups. Qed.
Print Assumptions C45_fit_groups.
Example c45_fit_groups : e_groups _ (snd (fst (fit _ copy_train (ex_est (Regressor Log) (Some (LName "p")) None None) (ex_X 1 5) [Some 1; Some 2]))) =
  Some (map (fun c => [c]) (filter (fun c => negb (label_eqb c (LName "w"))) (columns_of (ex_X 1 5)))).
Proof. reflexivity. Qed.

(** C81: with features, [predict] before [fit] fails. *)
Theorem C81_features_partial : forall (M : Type) score (e : estimator M) X n g gs, e_model M e = None -> e_groups M e = Some (g :: gs) ->
  exists err, fst (predict M score e X n) = LErr err.
Proof. exact @unfitted_features. Qed.
Print Assumptions C81_features_partial.
(** But never with [NotFittedError]; and without a list of features a prior column is
    returned as the prediction. *)
Theorem C81_error_always_refuted : forall (M : Type) score (e : estimator M) X n, e_model M e = None ->
  fst (predict M score e X n) <> LErr NotFittedError.
Proof. exact @never_not_fitted. Qed.
Print Assumptions C81_error_always_refuted.
Theorem C81_prior_always_refuted : forall (M : Type) score (e : estimator M) (X : dframe) n c (v : column) l, e_model M e = None ->
  e_groups M e = None -> e_kind M e = Regressor l -> e_prior M e = Some c -> get_column X c = Some v ->
  (forall p, In p v -> exists x s, p = Some x /\ link_func l x = Some s) ->
  fst (predict M score e X n) = LOk v.
Proof. exact @unfitted_prior. Qed.
Print Assumptions C81_prior_always_refuted.
Example c81_example : fst (predict (list column) copy_score (ex_est (Regressor Log) None (Some (LName "a")) None) (ex_X 2 5) 2) = LOk [Some 2; Some 1].
Proof. exact ex_unfitted. Qed.

(** C82: [fit] and [predict] leave the caller's frame alone. *)
Theorem C82_kept_partial : forall (M : Type) train score (e : estimator M) X, e_kind M e <> DispersionModel \/ e_prior M e = None ->
  (forall y, snd (fit M train e X y) = X) /\ (forall n, snd (predict M score e X n) = X).
Proof. exact @data_kept. Qed.
Print Assumptions C82_kept_partial.
(** The dispersion model clips the prior predictions in the caller's frame. *)
Theorem C82_dispersion_always_refuted : forall (M : Type) score (e : estimator M) X c v n, e_kind M e = DispersionModel ->
  e_prior M e = Some c -> get_column X c = Some v ->
  (exists p, fst (predict M score e X n) = LOk p /\ e_model M e <> None) ->
  get_column (snd (predict M score e X n)) c = Some (map clip01 v).
Proof. exact @dispersion_clips. Qed.
Print Assumptions C82_dispersion_always_refuted.
Theorem C82_dispersion_refuted : exists e X c v X', e_kind (list column) e = DispersionModel /\
  predict (list column) copy_score e X 2 = (LOk [Some (unlink_func Logit 3); Some (unlink_func Logit 1)], X') /\
  get_column X c = Some v /\ get_column X' c <> Some v.
Proof. exact clips_example. Qed.
Print Assumptions C82_dispersion_refuted.
