(** Pipeline factories and estimator constructors: which settings arrive where
    (pipelines.py and the [__init__] methods of the estimators). *)
From Coq Require Import ZArith QArith List Bool String.
Import ListNotations.

(** The estimators the factory knows (pipelines.py:1-16) and any other class. *)
Inductive estimator :=
| CBPoissonRegressor | CBLocPoissonRegressor | CBLocationRegressor | CBClassifier
| CBNBinomRegressor | CBExponential | CBNBinomC | CBGBSRegressor
| CBMultiplicativeQuantileRegressor | CBAdditiveQuantileRegressor
| CBMultiplicativeGenericCRegressor | CBAdditiveGenericCRegressor | CBGenericClassifier
| OtherClass.

(** The keyword parameters of [pipeline_CB] (pipelines.py:21-52) other than the
    estimator. *)
Inductive setting :=
| feature_groups | hierarchical_feature_groups | feature_properties | weight_column
| prior_prediction_column | minimal_loss_change | minimal_factor_change | maximal_iterations
| observers | smoother_choice | output_column | learn_rate | number_of_bins | aggregate
| a_param | c_param | external_colname | standard_feature_groups | external_feature_groups
| var_prior_exponent | prior_exponent_colname | mean_prediction_column | gamma | bayes
| n_steps | regalpha | quantile | costs | inplace.

Scheme Equality for setting.

(** Python values: only the ones that occur as defaults are named, [VObj] is any
    other object a user passes. *)
Inductive value :=
| VNone | VBool (b : bool) | VNum (q : Q)
| VObj (id : nat)
| VHalfLinear            (* learning_rate.half_linear_learn_rate *)
| VConstantOne           (* learning_rate.constant_learn_rate_one *)
| VWeightedMean          (* a fresh SmootherChoiceWeightedMean *)
| VEmptyList
| VCombined (standard external : value).  (* combine_lists_of_feature_groups *)

Definition is_none (v : value) : bool := match v with VNone => true | _ => false end.

(** Keyword arguments of a call: [None] is "not given". *)
Definition kwargs := setting -> option value.

Inductive result (A : Type) :=
| Ok (x : A)
| TypeError
| ValueError
| NoValidEstimator.   (* Exception("No valid CB estimator.") *)
Arguments Ok {A} x. Arguments TypeError {A}. Arguments ValueError {A}. Arguments NoValidEstimator {A}.

(** A signature: [None] for a keyword the function does not have, [Some None]
    for a required parameter, [Some (Some d)] for one with default [d]. *)
Definition signature := setting -> option (option value).

Definition all_settings : list setting :=
  [feature_groups; hierarchical_feature_groups; feature_properties; weight_column;
   prior_prediction_column; minimal_loss_change; minimal_factor_change; maximal_iterations;
   observers; smoother_choice; output_column; learn_rate; number_of_bins; aggregate;
   a_param; c_param; external_colname; standard_feature_groups; external_feature_groups;
   var_prior_exponent; prior_exponent_colname; mean_prediction_column; gamma; bayes;
   n_steps; regalpha; quantile; costs; inplace].

(** Python's binding of keyword arguments: an unexpected keyword and a missing
    required argument are a TypeError. *)
Definition bind (sig : signature) (kw : kwargs) : result (setting -> value) :=
  if forallb (fun s => match sig s, kw s with
                       | None, Some _ => false
                       | Some None, None => false
                       | _, _ => true
                       end) all_settings
  then Ok (fun s => match kw s with
                    | Some v => v
                    | None => match sig s with Some (Some d) => d | _ => VNone end
                    end)
  else TypeError.

(** The keyword arguments of a call [f(x=x, y=y, ...)] for the listed names. *)
Definition pass (names : list setting) (env : setting -> value) : kwargs :=
  fun s => if existsb (setting_beq s) names then Some (env s) else None.

(** ** Constructors *)
(** The attributes of an estimator that hold settings; [None]: no such attribute. *)
Definition attributes := setting -> option value.

(** The settings of [CyclicBoostingBase.__init__] (base.py:268-284) without
    [training_iterations_hierarchical_features], which no pipeline passes on,
    for given defaults of the stop criteria. *)
Definition common_signature (loss_change factor_change : Q) (iterations : Q) : signature := fun s =>
  match s with
  | feature_groups | hierarchical_feature_groups | feature_properties | weight_column
  | prior_prediction_column | observers | smoother_choice | output_column | learn_rate => Some (Some VNone)
  | minimal_loss_change => Some (Some (VNum loss_change))
  | minimal_factor_change => Some (Some (VNum factor_change))
  | maximal_iterations => Some (Some (VNum iterations))
  | aggregate => Some (Some (VBool true))
  | _ => None
  end.
Definition base_signature : signature := common_signature (1#1000000) (1#10000) 10.

(** [CyclicBoostingBase.__init__] (base.py:285-330). Simplification: the values
    are well formed (a smoother choice is a [SmootherChoice], feature groups are
    not empty and name features), so the checks of base.py:288-290, 298-301,
    312 and 330 do not raise. *)
Definition base_init (kw : kwargs) : result attributes :=
  match bind base_signature kw with
  | Ok env => Ok (fun s =>
      match s with
      | feature_groups | hierarchical_feature_groups | feature_properties | weight_column
      | prior_prediction_column | minimal_loss_change | minimal_factor_change
      | maximal_iterations | output_column | aggregate => Some (env s)
      | smoother_choice => Some (if is_none (env smoother_choice) then VWeightedMean else env smoother_choice)
      | observers => Some (if is_none (env observers) then VEmptyList else env observers)
      | learn_rate => Some (if negb (is_none (env hierarchical_feature_groups)) then VConstantOne
                            else if is_none (env learn_rate) then VHalfLinear else env learn_rate)
      | _ => None
      end)
  | TypeError => TypeError | ValueError => ValueError | NoValidEstimator => NoValidEstimator
  end.

(** [self.x = x] for further parameters after the call of the parent. *)
Definition set_attributes (names : list setting) (env : setting -> value) (r : result attributes)
  : result attributes :=
  match r with
  | Ok att => Ok (fun s => if existsb (setting_beq s) names then Some (env s) else att s)
  | e => e
  end.

Definition with_extra (base : signature) (extra : list (setting * option value)) : signature := fun s =>
  match find (fun p => setting_beq s (fst p)) extra with
  | Some (_, d) => Some d
  | None => base s
  end.
Definition without (names : list setting) (base : signature) : signature := fun s =>
  if existsb (setting_beq s) names then None else base s.

(** The settings every estimator but a few forwards to its parent. *)
Definition common_names : list setting :=
  [feature_groups; hierarchical_feature_groups; feature_properties; weight_column;
   prior_prediction_column; minimal_loss_change; minimal_factor_change; maximal_iterations;
   observers; smoother_choice; output_column; learn_rate; aggregate].

(** [CBNBinomRegressor.__init__] (regression.py:106-141). *)
Definition nbinom_signature : signature :=
  with_extra (common_signature (1#1000) (1#1000) 10) [(a_param, Some (VNum 1)); (c_param, Some (VNum 0))].
Definition nbinom_init (kw : kwargs) : result attributes :=
  match bind nbinom_signature kw with
  | Ok env => set_attributes [a_param; c_param] env (base_init (pass common_names env))
  | TypeError => TypeError | ValueError => ValueError | NoValidEstimator => NoValidEstimator
  end.

(** [CBExponential.__init__] (price.py:218-267): the parent gets the combined
    feature groups; [combine_lists_of_feature_groups] (price.py:23-27) raises a
    ValueError if the standard groups are None. *)
Definition exponential_signature : signature :=
  with_extra (without [feature_groups; hierarchical_feature_groups; aggregate] (common_signature (1#1000) (1#1000) 20))
    [(external_colname, None); (standard_feature_groups, None); (external_feature_groups, None);
     (var_prior_exponent, Some (VNum (1#10))); (prior_exponent_colname, Some VNone);
     (a_param, Some (VNum 1)); (c_param, Some (VNum 0))].
Definition exponential_init (kw : kwargs) : result attributes :=
  match bind exponential_signature kw with
  | Ok env =>
      if is_none (env standard_feature_groups) then ValueError else
      let env' s := match s with
                    | feature_groups => VCombined (env standard_feature_groups) (env external_feature_groups)
                    | _ => env s
                    end in
      set_attributes [external_colname; standard_feature_groups; external_feature_groups;
                      prior_exponent_colname; var_prior_exponent] env
        (nbinom_init (pass [feature_groups; feature_properties; weight_column; prior_prediction_column;
                            minimal_loss_change; minimal_factor_change; maximal_iterations; observers;
                            smoother_choice; output_column; learn_rate; a_param; c_param] env'))
  | TypeError => TypeError | ValueError => ValueError | NoValidEstimator => NoValidEstimator
  end.

(** [CBNBinomC.__init__] (nbinom.py:64-99). *)
Definition nbinomc_signature : signature :=
  with_extra (without [hierarchical_feature_groups; aggregate] (common_signature (1#10000) (1#10000) 10))
    [(mean_prediction_column, None); (learn_rate, Some VConstantOne); (gamma, Some (VNum 0));
     (bayes, Some (VBool false)); (n_steps, Some (VNum 15))].
Definition nbinomc_init (kw : kwargs) : result attributes :=
  match bind nbinomc_signature kw with
  | Ok env => set_attributes [mean_prediction_column; gamma; bayes; n_steps] env
      (base_init (pass [feature_groups; feature_properties; weight_column; prior_prediction_column;
                        minimal_loss_change; minimal_factor_change; maximal_iterations; observers;
                        smoother_choice; output_column; learn_rate] env))
  | TypeError => TypeError | ValueError => ValueError | NoValidEstimator => NoValidEstimator
  end.

(** [CBGBSRegressor.__init__] (GBSregression.py:37-69). *)
Definition gbs_signature : signature :=
  with_extra (without [prior_prediction_column] (common_signature (1#10000000000) (1#10000000000) 10))
    [(regalpha, Some (VNum 0))].
Definition gbs_init (kw : kwargs) : result attributes :=
  match bind gbs_signature kw with
  | Ok env => set_attributes [regalpha] env
      (base_init (pass [feature_groups; hierarchical_feature_groups; feature_properties; weight_column;
                        minimal_loss_change; minimal_factor_change; maximal_iterations; observers;
                        smoother_choice; output_column; learn_rate; aggregate] env))
  | TypeError => TypeError | ValueError => ValueError | NoValidEstimator => NoValidEstimator
  end.

(** [CBQuantileRegressor.__init__] (generic_loss.py:197-231) and the two
    subclasses, which forward all their parameters to it with the same defaults
    (generic_loss.py:426-459, 487-520). *)
Definition quantile_signature : signature :=
  with_extra (common_signature (1#10000000000) (1#10000000000) 10) [(quantile, Some VNone)].
Definition quantile_base_init (kw : kwargs) : result attributes :=
  match bind quantile_signature kw with
  | Ok env => set_attributes [quantile] env (base_init (pass common_names env))
  | TypeError => TypeError | ValueError => ValueError | NoValidEstimator => NoValidEstimator
  end.
Definition quantile_init (kw : kwargs) : result attributes :=
  match bind quantile_signature kw with
  | Ok env => quantile_base_init (pass (quantile :: common_names) env)
  | TypeError => TypeError | ValueError => ValueError | NoValidEstimator => NoValidEstimator
  end.

(** The constructors of the three generic estimators (generic_loss.py:625-659,
    690-724, 754-788). *)
Definition generic_signature : signature :=
  with_extra (common_signature (1#10000000000) (1#10000000000) 10) [(costs, Some VNone)].
Definition generic_init (kw : kwargs) : result attributes :=
  match bind generic_signature kw with
  | Ok env => set_attributes [costs] env (base_init (pass common_names env))
  | TypeError => TypeError | ValueError => ValueError | NoValidEstimator => NoValidEstimator
  end.

(** Construction of an estimator; [CBPoissonRegressor], [CBLocPoissonRegressor],
    [CBLocationRegressor] and [CBClassifier] inherit the constructor of the base. *)
Definition construct (e : estimator) (kw : kwargs) : result attributes :=
  match e with
  | CBPoissonRegressor | CBLocPoissonRegressor | CBLocationRegressor | CBClassifier => base_init kw
  | CBNBinomRegressor => nbinom_init kw
  | CBExponential => exponential_init kw
  | CBNBinomC => nbinomc_init kw
  | CBGBSRegressor => gbs_init kw
  | CBMultiplicativeQuantileRegressor | CBAdditiveQuantileRegressor => quantile_init kw
  | CBMultiplicativeGenericCRegressor | CBAdditiveGenericCRegressor | CBGenericClassifier => generic_init kw
  | OtherClass => TypeError
  end.

Definition constructor_signature (e : estimator) : signature :=
  match e with
  | CBPoissonRegressor | CBLocPoissonRegressor | CBLocationRegressor | CBClassifier => base_signature
  | CBNBinomRegressor => nbinom_signature
  | CBExponential => exponential_signature
  | CBNBinomC => nbinomc_signature
  | CBGBSRegressor => gbs_signature
  | CBMultiplicativeQuantileRegressor | CBAdditiveQuantileRegressor => quantile_signature
  | CBMultiplicativeGenericCRegressor | CBAdditiveGenericCRegressor | CBGenericClassifier => generic_signature
  | OtherClass => fun _ => None
  end.

(** ** The factory *)
(** The defaults of [pipeline_CB] (pipelines.py:21-52). *)
Definition pipeline_default (s : setting) : value :=
  match s with
  | minimal_loss_change | minimal_factor_change => VNum (1#1000)
  | maximal_iterations => VNum 10
  | number_of_bins => VNum 100
  | aggregate => VBool true
  | a_param => VNum 1
  | c_param => VNum 0
  | var_prior_exponent => VNum (1#10)
  | gamma => VNum 0
  | bayes => VBool false
  | n_steps => VNum 15
  | regalpha => VNum 0
  | inplace => VBool false
  | _ => VNone
  end.

(** The attributes of the binning step (pipelines.py:175): number of bins,
    feature properties and in-place flag. *)
Record binner := { n_bins : value; properties : value; in_place : value }.

(** [BinNumberTransformer(n_bins=.., feature_properties=.., inplace=..)]
    (bin_number_transformer.py:122-145) *)
Definition default_binner : binner := {| n_bins := VNum 100; properties := VNone; in_place := VBool false |}.
Definition make_binner (env : setting -> value) : binner :=
  {| n_bins := env number_of_bins; properties := env feature_properties; in_place := env inplace |}.

(** The names passed on by the branches of [pipeline_CB] (pipelines.py:53-174);
    [None] is the exception of the last branch. *)
Definition forwarded (e : estimator) : option (list setting) :=
  match e with
  | CBPoissonRegressor | CBLocPoissonRegressor | CBLocationRegressor | CBClassifier =>
      Some [feature_groups; hierarchical_feature_groups; feature_properties; weight_column;
            prior_prediction_column; minimal_loss_change; minimal_factor_change; maximal_iterations;
            observers; smoother_choice; output_column; learn_rate; aggregate]
  | CBNBinomRegressor =>
      Some [feature_groups; hierarchical_feature_groups; feature_properties; weight_column;
            prior_prediction_column; minimal_loss_change; minimal_factor_change; maximal_iterations;
            observers; smoother_choice; output_column; learn_rate; aggregate; a_param; c_param]
  | CBExponential =>
      Some [external_colname; standard_feature_groups; external_feature_groups; feature_properties;
            weight_column; prior_prediction_column; minimal_loss_change; minimal_factor_change;
            maximal_iterations; observers; smoother_choice; output_column; learn_rate;
            var_prior_exponent; prior_exponent_colname]
  | CBNBinomC =>
      Some [mean_prediction_column; feature_groups; feature_properties; weight_column;
            prior_prediction_column; minimal_loss_change; minimal_factor_change; maximal_iterations;
            observers; smoother_choice; output_column; learn_rate; gamma; bayes; n_steps]
  | CBGBSRegressor =>
      Some [feature_groups; hierarchical_feature_groups; feature_properties; weight_column;
            minimal_loss_change; minimal_factor_change; maximal_iterations; observers;
            smoother_choice; output_column; learn_rate; aggregate; regalpha]
  | CBMultiplicativeQuantileRegressor | CBAdditiveQuantileRegressor =>
      Some [feature_groups; hierarchical_feature_groups; feature_properties; weight_column;
            prior_prediction_column; minimal_loss_change; minimal_factor_change; maximal_iterations;
            observers; smoother_choice; output_column; learn_rate; aggregate; quantile]
  | CBMultiplicativeGenericCRegressor | CBAdditiveGenericCRegressor | CBGenericClassifier =>
      Some [feature_groups; hierarchical_feature_groups; feature_properties; weight_column;
            prior_prediction_column; minimal_loss_change; minimal_factor_change; maximal_iterations;
            observers; smoother_choice; output_column; learn_rate; aggregate; costs]
  | OtherClass => None
  end.

(** [pipeline_CB(estimator, **kwargs)] (pipelines.py:21-177); the factories
    [pipeline_CBPoissonRegressor] etc. (pipelines.py:180-268) are this function
    applied to their estimator. *)
Definition pipeline_CB (e : estimator) (kw : kwargs) : result (binner * attributes) :=
  let env s := match kw s with Some v => v | None => pipeline_default s end in
  match forwarded e with
  | None => NoValidEstimator
  | Some names =>
      match construct e (pass names env) with
      | Ok att => Ok (make_binner env, att)
      | TypeError => TypeError | ValueError => ValueError | NoValidEstimator => NoValidEstimator
      end
  end.
