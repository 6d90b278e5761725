(** The reported contributions explain the predictions of the price model. *)
From Coq Require Import ZArith QArith Qreals List Bool String Reals Lra Lia.
From Verif.Model Require Import Num LexBins Train Predict Importance Link Estimators WholeFit Price PriceFit.
From Verif.Spec Require Import TrainSpec PredictSpec ImportanceSpec DataSpec PriceFitSpec ExplainSpec.
From Verif.Proofs Require Import TrainFacts TrainExamples PredictFacts NeutralFacts PredictExamples ImportanceFacts BookingFacts ContributionFacts PriceFitFacts.
Import ListNotations.
Local Open Scope R_scope.

Lemma reported_product e (X : list datarow) j ms : (j < List.length X)%nat -> forall i groups, List.length groups = List.length ms ->
  reported e ms (map snd (contribution_items exp i groups ms X)) j = exp (group_sum alone e i ms (nth j X (fun _ => []))).
Proof.
  intro Hj. induction ms as [|m ms IH]; intros i [|g gs] L; try discriminate; [cbn; rewrite exp_0; reflexivity|].
  cbn [contribution_items map snd reported group_sum]. rewrite exp_plus, IH by (cbn in L; lia). f_equal.
  destruct (Bool.eqb (m_ext m) e); [|rewrite exp_0; reflexivity].
  rewrite predict_factors_rowpred, !map_map.
  assert (G : forall (Y : list datarow) k, (k < List.length Y)%nat ->
    nth k (map (fun x : datarow => exp (rowpred m (x i))) Y) 0 = exp (rowpred m (nth k Y (fun _ => []) i))).
  { clear. induction Y as [|y Y IH]; intros [|k] H; cbn in *; try lia; auto. apply IH. lia. }
  transitivity (exp (rowpred m (nth j X (fun _ => []) i))); [exact (G X j Hj)|]. rewrite alone_rowpred. reflexivity.
Qed.

Theorem price_contributions : forall prior t X groups names, List.length groups = List.length (o_groups t) ->
  map2 contribution_key groups (map m_ext (o_groups t)) = map Some names -> NoDup names ->
  exists columns, get_feature_contributions exp groups (o_groups t) (map (fun r => x_bins (q_row r)) X) = Some (combine names columns) /\
    List.length columns = List.length names /\
    forall j r, nth_error X j = Some r -> nth_error (price_fit_predict prior t X) j =
      Some (exp (prior_of (o_scale t) (o_offset t) (price_column prior X) j) * reported false (o_groups t) columns j *
            exp (q_exponent r * reported true (o_groups t) columns j * external_base (q_price r))).
Proof.
  intros prior t X groups names Lg Hn Nd. change (map (fun r => x_bins (q_row r)) X) with (map (fun r => x_bins (q_row r) : datarow) X). set (B := map (fun r => x_bins (q_row r) : datarow) X : list datarow).
  exists (map snd (contribution_items exp 0 groups (o_groups t) B)).
  assert (L : List.length (map snd (contribution_items exp 0 groups (o_groups t) B)) = List.length names).
  { rewrite <- (map_length Some names), <- Hn, <- (items_keys exp B (o_groups t) 0 groups Lg), !map_length. reflexivity. }
  split.
  { unfold get_feature_contributions. rewrite items_combine, items_keys by auto. rewrite Hn.
    rewrite snd_combine by (rewrite map_length; lia). rewrite dict_of_distinct; [reflexivity|lia|exact Nd]. }
  split; [exact L|]. intros j r J. destruct (price_rows prior t X) as [_ P]. rewrite (P j r J). f_equal.
  assert (Hj : (j < List.length B)%nat) by (unfold B; rewrite map_length; apply nth_error_Some; congruence).
  rewrite !reported_product by auto.
  assert (NB : @nth datarow j B (fun _ => []) = x_bins (q_row r)) by (apply nth_error_nth; unfold B; apply map_nth_error with (f := fun r => x_bins (q_row r)); exact J).
  rewrite !exp_plus. rewrite NB. reflexivity.
Qed.

Definition external_model (a : R) : trained := {| m_dim := 1; m_nbins := [1%Z]; m_ext := true; m_values := [a]; m_missing := 0; m_smoother := true |}.
Definition two_sided : model := {| o_scale := 1; o_offset := 0; o_groups := [x_model 2; external_model 3]; o_iterations := 1; o_loss := 0 |}.
Definition at_two (x : fnum) : price_sample :=
  {| q_row := {| x_bins := fun _ => [Fin 0%Q]; x_y := 1; x_w := 1; x_prior := None |}; q_price := x; q_exponent := -1 |}.
Lemma two_sided_case : map2 contribution_key [[CName "a"]; [CName "a"]] (map m_ext (o_groups two_sided)) = map Some ["a"; "a_external"]%string /\
  get_feature_contributions exp [[CName "a"]; [CName "a"]] (o_groups two_sided) (map (fun r => x_bins (q_row r)) [at_two (Fin 2)]) =
    Some [("a"%string, [exp 2]); ("a_external"%string, [exp 3])] /\
  price_fit_predict false two_sided [at_two (Fin 2)] = [exp (1 + 2 + -1 * exp 3 * 1)].
Proof.
  split; [reflexivity|]. split; [lazy -[exp Rplus Rmult IZR]; match_up|].
  destruct (price_rows false two_sided [at_two (Fin 2)]) as [L P]. specialize (P 0%nat (at_two (Fin 2)) eq_refl).
  destruct (price_fit_predict false two_sided [at_two (Fin 2)]) as [|v [|]]; try discriminate L. cbn [nth_error] in P. injection P as ->. do 2 f_equal.
  assert (A : forall e v, alone {| m_dim := 1; m_nbins := [1%Z]; m_ext := e; m_values := [v]; m_missing := 0; m_smoother := true |} [Fin 0] = v).
  { intros e v. rewrite alone_rowpred. unfold rowpred. cbn. lra. }
  unfold two_sided, x_model, external_model, at_two. cbn [o_scale o_offset o_groups q_row q_price q_exponent x_bins price_column prior_of external_base group_sum m_ext Bool.eqb].
  rewrite !A. unfold Q2R. cbn. replace (0 + (3 + 0)) with 3 by ring. lra.
Qed.
