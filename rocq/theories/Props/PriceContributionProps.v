(** C50: explanations of the predictions of the price model. *)
From Coq Require Import ZArith QArith List Bool String Reals.
From Verif.Model Require Import Num Train Predict Importance WholeFit Price PriceFit.
From Verif.Spec Require Import PredictSpec ExplainSpec.
From Verif.Proofs Require Import PriceContributions.
Import ListNotations.
Local Open Scope R_scope.

(** With groups acting on the external column: the prediction is the prior times the
    contributions reported for the usual groups times the price effect, whose exponent is the
    prior exponent times the contributions reported for the external groups. *)
Theorem C50_price_contributions : forall prior t X groups names, List.length groups = List.length (o_groups t) ->
  map2 contribution_key groups (map m_ext (o_groups t)) = map Some names -> NoDup names ->
  exists columns, get_feature_contributions exp groups (o_groups t) (map (fun r => x_bins (q_row r)) X) = Some (combine names columns) /\
    List.length columns = List.length names /\
    forall j r, nth_error X j = Some r -> nth_error (price_fit_predict prior t X) j =
      Some (exp (prior_of (o_scale t) (o_offset t) (price_column prior X) j) * reported false (o_groups t) columns j *
            exp (q_exponent r * reported true (o_groups t) columns j * external_base (q_price r))).
Proof. exact price_contributions. Qed.
Print Assumptions C50_price_contributions.

(** The column a as a usual and as an external group, and a price of twice the reference. *)
Example c50_price_case : map2 contribution_key [[CName "a"]; [CName "a"]] (map m_ext (o_groups two_sided)) = map Some ["a"; "a_external"]%string /\
  get_feature_contributions exp [[CName "a"]; [CName "a"]] (o_groups two_sided) (map (fun r => x_bins (q_row r)) [at_two (Fin 2)]) =
    Some [("a"%string, [exp 2]); ("a_external"%string, [exp 3])] /\
  price_fit_predict false two_sided [at_two (Fin 2)] = [exp (1 + 2 + -1 * exp 3 * 1)].
Proof. exact two_sided_case. Qed.
