(** Model of the estimator's methods on data frames: cyclic_boosting/base.py
    (fit, _fit_predict, predict, fit_transform, transform, _check_fitted,
    required_columns, _init_default_feature_groups) and their overrides in
    classification.py, location.py, nbinom.py and price.py. *)
From Coq Require Import List Bool Reals String.
From Verif.Model Require Import Num LexBins Train Link Frames.
Import ListNotations.
Local Open Scope R_scope.

(** A float column, [None] is NaN; a pandas.DataFrame. Row labels are left out. *)
Definition column := list (option R).
Definition dframe := list (label * column).
Definition columns_of (X : dframe) : list label := map fst X.
Definition has_column (X : dframe) (c : label) : bool := existsb (label_eqb c) (columns_of X).

(** The classes whose methods differ. [PriceModel external]: whether there are
    external feature groups. *)
Inductive kind :=
| Regressor (l : link)       (* regression.py, location.py:163-, GBSregression.py, generic_loss.py *)
| Classifier                 (* classification.py *)
| LocPoisson                 (* location.py:20-79 *)
| DispersionModel            (* nbinom.py *)
| PriceModel (external : bool). (* price.py *)
Definition link_of (k : kind) : link :=
  match k with
  | Regressor l => l
  | Classifier | DispersionModel => Logit
  | LocPoisson => Identity
  | PriceModel _ => Log
  end.

Inductive lerror :=
| NotDefined      (* KeyError "output_column not defined", base.py:860, 871 *)
| AlreadyExists   (* KeyError "output_column exists already", base.py:863, 874 *)
| MissingColumn   (* KeyError of a column access *)
| NotFittedError  (* ValueError "fit must be called first", base.py:944 *)
| Attribute       (* AttributeError *)
| Training        (* raised by training: target checks, ConvergenceError, … *)
| OtherError.     (* some other exception *)
Inductive lresult (A : Type) := LOk (a : A) | LErr (e : lerror).
Arguments LOk {A} a.
Arguments LErr {A} e.

Section Estimators.
(** A trained model; training on the columns that were read (first those only
    needed for training: the mean predictions of the dispersion model and the
    weights) gives a model and the in-sample prediction in link space, or raises.
    Prediction in link space. *)
Variable M : Type.
Variable train : list column -> list column -> column -> option (M * list R).
Variable score : M -> list column -> list R.

Record estimator := {
  e_kind : kind;
  e_groups : option (list (list label));
  e_weight : option label;
  e_prior : option label;
  e_output : option label;
  e_mean : label;                 (* mean_prediction_column, nbinom.py:96 *)
  e_external : label;             (* external_colname, price.py:244 *)
  e_prior_exponent : option label; (* price.py:240 *)
  e_model : option M;             (* [None]: fit was not called *)
  e_mu : option column            (* self.mu, nbinom.py:137 *)
}.
Definition with_state (e : estimator) (g : option (list (list label))) (m : option M) (mu : option column) : estimator :=
  {| e_kind := e_kind e; e_groups := g; e_weight := e_weight e; e_prior := e_prior e; e_output := e_output e;
     e_mean := e_mean e; e_external := e_external e; e_prior_exponent := e_prior_exponent e; e_model := m; e_mu := mu |}.

Definition opt_list {A} (o : option A) : list A := match o with Some a => [a] | None => [] end.

(** [_init_default_feature_groups] (base.py:382-395, 706-707). *)
Definition groups_for (e : estimator) (X : dframe) : list (list label) :=
  match e_groups e with
  | Some g => g
  | None => map (fun c => [c]) (filter (fun c => negb (excluded (e_prior e) c) && negb (excluded (e_weight e) c)) (columns_of X))
  end.

(** The columns read by [_init_fit] and [_fit_main] (base.py:352-367, 410-411, 450,
    684-691; price.py:294, 301-305) and by [predict_extended] (base.py:450, 835;
    price.py:294, 301-305). The features' columns are read group by group. *)
Definition price_columns (e : estimator) : list label :=
  match e_kind e with PriceModel _ => e_external e :: opt_list (e_prior_exponent e) | _ => [] end.
Definition predict_reads (e : estimator) (g : list (list label)) : list label :=
  price_columns e ++ opt_list (e_prior e) ++ List.concat g.
Fixpoint read_columns (X : dframe) (cs : list label) : option (list column) :=
  match cs with
  | [] => Some []
  | c :: r => match get_column X c, read_columns X r with
              | Some v, Some vs => Some (v :: vs)
              | _, _ => None
              end
  end.

Definition fit_columns (e : estimator) (g : list (list label)) (X : dframe) : option (list column * list column) :=
  match read_columns X (opt_list (e_weight e)), read_columns X (predict_reads e g) with
  | Some ws, Some cols => Some (ws, cols)
  | _, _ => None
  end.

(** [np.clip(prior_pred, 0, 1, prior_pred)] writes into the caller's float
    column (nbinom.py:146-147). *)
Definition clip01 (v : option R) : option R :=
  match v with Some x => Some (Rmin (Rmax x 0) 1) | None => None end.
Definition after_prior (e : estimator) (X : dframe) : dframe :=
  match e_kind e, e_prior e with
  | DispersionModel, Some c => match get_column X c with
                               | Some v => put_column X c (map clip01 v)
                               | None => X
                               end
  | _, _ => X
  end.

(** [_fit_predict] (base.py:817-829): the in-sample prediction, the estimator and
    the caller's frame afterwards. The dispersion model needs [self.mu] in the
    first call of [loss] (nbinom.py:134); the plain predictions of the base class
    have no exponents, so external features fail (base.py:56-58, 824;
    price.py:363). A training that fails is only recorded as such: the model of an
    earlier fit is kept here; what really is left in that case is modelled in
    FailedFit.v. *)
Definition unlinked (k : kind) (scores : list R) : column := map (fun s => Some (unlink_func (link_of k) s)) scores.
Definition run_training (e : estimator) (g : list (list label)) (extra inputs : list column) (X' : dframe) (y : column)
  : lresult column * estimator * dframe :=
  match train extra inputs y with
  | Some (m, scores) => (LOk (unlinked (e_kind e) scores), with_state e (Some g) (Some m) (e_mu e), X')
  | None => (LErr Training, with_state e (Some g) (e_model e) (e_mu e), X')
  end.
Definition fit_predict (e : estimator) (X : dframe) (y : column) : lresult column * estimator * dframe :=
  let g := groups_for e X in
  let failed err X' := (LErr err, with_state e (Some g) (e_model e) (e_mu e), X') in
  match fit_columns e g X with
  | None => failed MissingColumn X
  | Some (ws, cols) =>
      match e_kind e with
      | DispersionModel => match e_mu e with
                           | Some mu => run_training e g (mu :: ws) cols (after_prior e X) y
                           | None => failed Attribute (after_prior e X)
                           end
      | PriceModel true => failed Attribute X
      | _ => run_training e g ws cols X y
      end
  end.

(** [fit] (base.py:694-698, nbinom.py:136-140, price.py:417-428). *)
Definition fit (e : estimator) (X : dframe) (y : column) : option lerror * estimator * dframe :=
  match e_kind e with
  | DispersionModel =>
      match get_column X (e_mean e) with
      | None => (Some MissingColumn, e, X)
      | Some mu =>
          match fit_predict (with_state e (e_groups e) (e_model e) (Some mu)) X y with
          | (LOk _, e', X') => (None, with_state e' (e_groups e') (e_model e') None, X')
          | (LErr err, e', X') => (Some err, e', X')
          end
      end
  | PriceModel _ =>
      let g := groups_for e X in
      match fit_columns e g X with
      | None => (Some MissingColumn, with_state e (Some g) (e_model e) (e_mu e), X)
      | Some (ws, cols) => match run_training e g ws cols X y with
                     | (LOk _, e', X') => (None, e', X')
                     | (LErr err, e', X') => (Some err, e', X')
                     end
      end
  | _ => match fit_predict e X y with
         | (LOk _, e', X') => (None, e', X')
         | (LErr err, e', X') => (Some err, e', X')
         end
  end.

(** The class-specific step of [predict] (base.py:839-841, classification.py:144-146,
    location.py:77-79). *)
Definition post (k : kind) (v : option R) : option R :=
  match k with
  | Classifier => match v with Some p => if Rltb (1 / 2) p then Some 1 else Some 0 | None => Some 0 end
  | LocPoisson => match v with Some x => if Rltb 0 x then Some x else Some 0 | None => Some 0 end
  | _ => v
  end.

(** [predict] before [fit]. [_check_fitted] (base.py:941-944) tests [self.features],
    which the constructor has already set (base.py:331, 399-400 of
    features.py). With features, the missing factors fail (features.py:77,
    base.py:123); without, the prediction is the prior prediction with offset 0
    (base.py:309), for the dispersion model the neutral 0 (nbinom.py:144), and an
    array of None otherwise, which only the identity link lets through. *)
Definition features_set (e : estimator) : bool := true.
Definition prior_scores (k : kind) (v : column) : column :=
  map (fun p => match link_option (link_of k) p with Some s => Some (unlink_func (link_of k) s) | None => None end) v.
Definition unfitted_predict (e : estimator) (X : dframe) (n : nat) : lresult column :=
  if negb (features_set e) then LErr NotFittedError
  else match read_columns X (predict_reads e []) with
       | None => LErr MissingColumn
       | Some _ =>
           match e_groups e with
           | Some (_ :: _) => LErr OtherError
           | _ => match e_prior e with
                  | Some c => match get_column X c with
                              | Some v => LOk (map (post (e_kind e)) (prior_scores (e_kind e) v))
                              | None => LErr MissingColumn
                              end
                  | None => match e_kind e with
                            | DispersionModel => LOk (repeat (Some (unlink_func Logit 0)) n)
                            | k => match link_of k with
                                   | Identity => LOk (repeat None n)
                                   | _ => LErr OtherError
                                   end
                            end
                  end
           end
       end.

(** [predict] (base.py:839-856) on a frame with [n] rows, and the caller's frame
    afterwards. *)
Definition predict (e : estimator) (X : dframe) (n : nat) : lresult column * dframe :=
  match e_model e with
  | None => (unfitted_predict e X n, X)
  | Some m =>
      match read_columns X (predict_reads e (groups_for e X)) with
      | None => (LErr MissingColumn, X)
      | Some cols => (LOk (map (post (e_kind e)) (unlinked (e_kind e) (score m cols))), after_prior e X)
      end
  end.

(** [not self.output_column] and the membership test of [fit_transform] and
    [transform] (base.py:859-863, 870-874). *)
Definition falsy (c : label) : bool :=
  match c with LName s => String.eqb s "" | LPos n => Nat.eqb n 0 end.
Definition check_output (e : estimator) (X : dframe) : lresult label :=
  match e_output e with
  | None => LErr NotDefined
  | Some o => if falsy o then LErr NotDefined
              else if has_column X o then LErr AlreadyExists else LOk o
  end.

(** [fit_transform] (base.py:858-867) and [transform] (base.py:869-878): the
    returned frame is the caller's frame, changed in place. *)
Definition fit_transform (e : estimator) (X : dframe) (y : column) : lresult dframe * estimator * dframe :=
  match check_output e X with
  | LErr err => (LErr err, e, X)
  | LOk o => match fit_predict e X y with
             | (LOk p, e', X') => (LOk (put_column X' o p), e', put_column X' o p)
             | (LErr err, e', X') => (LErr err, e', X')
             end
  end.
Definition transform (e : estimator) (X : dframe) (n : nat) : lresult dframe * dframe :=
  match check_output e X with
  | LErr err => (LErr err, X)
  | LOk o => match predict e X n with
             | (LOk p, X') => (LOk (put_column X' o p), put_column X' o p)
             | (LErr err, X') => (LErr err, X')
             end
  end.

(** [required_columns] (base.py:1073-1086, price.py:269-274) of a fitted
    estimator. *)
Definition required_columns (e : estimator) : list label :=
  opt_list (e_weight e) ++ opt_list (e_prior e) ++
  match e_groups e with Some g => List.concat g | None => [] end ++
  match e_kind e with PriceModel _ => e_external e :: opt_list (e_prior_exponent e) | _ => [] end.
End Estimators.
