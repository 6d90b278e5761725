(** Concrete fits for the importances and bookings. *)
From Coq Require Import ZArith QArith List Bool String Reals Lia Lra.
From Verif.Model Require Import Num LexBins Train Predict Importance.
From Verif.Spec Require Import TrainSpec PredictSpec ImportanceSpec.
From Verif.Proofs Require Import TrainFacts TrainHistory TrainExamples PredictFacts ImportanceFacts.
Import ListNotations.
Local Open Scope R_scope.

Definition i_feats : list feature := [ex_feature false false; ex_feature false false].
Definition i_cfg := ex_cfg true false false 0 1.
Definition i_state (a : R) : state := {|
  t_preds := st_preds (a + a);
  t_feats := [{| s_fitted := true; s_factors := [a; 0]; s_old := [0; 0]; s_agg := Some [a; 0]; s_zero := false |};
              {| s_fitted := true; s_factors := [a; 0]; s_old := [0; 0]; s_agg := Some [a; 0]; s_zero := false |}];
  t_iter := 1; t_diverging := 0; t_isdiv := false; t_loss := 1; t_losschange := 0; t_delta := a / 2 |}.
Lemma i_run a : 0 < a -> fit_main i_cfg i_feats (ex_calc a 0) ex_smooth ex_id ex_rate flat_loss 6 ex_prior = Some (Ok (i_state a)).
Proof.
  intro Ha. unfold fit_main. change (flat_loss ex_prior) with 1.
  rewrite (loop_step _ _ _ _ _ _ _ _ _ _ (i_state a)).
  - rewrite loop_end; [|unfold i_state; evals; reflexivity]. unfold i_state. evals. reflexivity.
  - evals. reflexivity.
  - unfold i_state. evals. match_up.
Qed.
Lemma i_well_shaped : well_shaped 1 i_feats ex_prior.
Proof.
  split; [reflexivity|]. split; [reflexivity|]. intros f [<-|[<-|[]]]; (split; [reflexivity|]; intros row [<-|[]]; reflexivity).
Qed.
Lemma i_one_per_bin a : one_per_bin i_feats (ex_calc a 0) ex_id.
Proof.
  split; [|reflexivity]. intros [|[|[|i]]] f it p H; cbn in H; try discriminate; injection H as <-; reflexivity.
Qed.
Lemma i_dims f : In f i_feats -> (1 <= f_dim f)%nat.
Proof. intros [<-|[<-|[]]]; cbn; lia. Qed.
Lemma i_means a : 0 < a -> mean_abs_contributions i_feats (i_state a) = [a; a].
Proof.
  intro Ha. unfold i_state.
  assert (E : Rabs a / 1 = a) by (rewrite Rabs_pos_eq by lra; field).
  lazy -[Rplus Rminus Ropp Rmult Rdiv Rinv IZR Rabs]. repeat f_equal; rewrite Rplus_0_r; exact E.
Qed.

Definition named (s : string) : list Importance.column := [CName s].
Definition fitted_once (groups : list (list Importance.column)) (a : R) (old : importances) : importances :=
  set_feature_importances groups i_feats (t_feats (i_state a)) old.

Lemma fitted_entries groups a old : 0 < a -> List.length groups = 2%nat ->
  fitted_once groups a old = old ++ combine groups [a; a].
Proof.
  intros Ha Hg. unfold fitted_once.
  rewrite (importances_entries i_cfg i_feats (ex_calc a 0) ex_smooth ex_id ex_rate flat_loss ex_prior 1
    i_well_shaped (i_one_per_bin a) i_dims 6 (i_state a) (i_run a Ha) groups Hg old).
  rewrite i_means by auto. reflexivity.
Qed.

Lemma ex_c25 : get_feature_importances (fitted_once [named "a"; named "b"] (1/4) []) =
  Importances [("a"%string, 1/2); ("b"%string, 1/2)].
Proof.
  rewrite fitted_entries by (auto; lra). cbn [app combine].
  unfold get_feature_importances, get_normalized_values, rounds_to_zero. cbn [map snd sumR].
  rewrite Rabs_pos_eq by lra. rewrite (proj2 (Rleb_false _ _)) by lra. cbn.
  match_up.
Qed.

Lemma refit_refuted : exists cfg features calc smooth calib rate loss prior fuel st groups d,
  well_shaped 1 features prior /\ one_per_bin features calc calib /\
  fit_main cfg features calc smooth calib rate loss fuel prior = Some (Ok st) /\
  map (joined "_") groups = map Some ["a"; "b"]%string /\
  get_feature_importances (set_feature_importances groups features (t_feats st)
    (set_feature_importances groups features (t_feats st) [])) = Importances d /\
  mean_abs_contributions features st = [1/4; 1/4] /\ sumR (map snd d) = 1/2.
Proof.
  exists i_cfg, i_feats, (ex_calc (1/4) 0), ex_smooth, ex_id, ex_rate, flat_loss, ex_prior, 6%nat, (i_state (1/4)),
    [named "a"; named "b"], [("a"%string, 1/4); ("b"%string, 1/4)].
  split; [apply i_well_shaped|]. split; [apply i_one_per_bin|]. split; [apply i_run; lra|].
  split; [reflexivity|]. split; [|split; [apply i_means; lra|cbn; lra]].
  fold (fitted_once [named "a"; named "b"] (1/4) []).
  fold (fitted_once [named "a"; named "b"] (1/4) (fitted_once [named "a"; named "b"] (1/4) [])).
  rewrite !fitted_entries by (auto; lra). cbn [app combine].
  unfold get_feature_importances, get_normalized_values, rounds_to_zero. cbn [map snd sumR].
  rewrite Rabs_pos_eq by lra. rewrite (proj2 (Rleb_false _ _)) by lra. cbn.
  match_up.
Qed.

Lemma collision_refuted : exists cfg features calc smooth calib rate loss prior fuel st groups d,
  well_shaped 1 features prior /\ one_per_bin features calc calib /\
  fit_main cfg features calc smooth calib rate loss fuel prior = Some (Ok st) /\
  List.length features = 2%nat /\ List.length groups = 2%nat /\ NoDup groups /\
  get_feature_importances (set_feature_importances groups features (t_feats st) []) = Importances d /\
  List.length d = 1%nat /\ sumR (map snd d) = 1/2.
Proof.
  exists i_cfg, i_feats, (ex_calc (1/4) 0), ex_smooth, ex_id, ex_rate, flat_loss, ex_prior, 6%nat, (i_state (1/4)),
    [[CName "a"; CName "b_c"]; [CName "a_b"; CName "c"]], [("a_b_c"%string, 1/2)].
  split; [apply i_well_shaped|]. split; [apply i_one_per_bin|]. split; [apply i_run; lra|].
  split; [reflexivity|]. split; [reflexivity|].
  split. { constructor; [intros [H|[]]; discriminate|]. constructor; [intros []|constructor]. }
  split; [|split; [reflexivity|cbn; lra]].
  fold (fitted_once [[CName "a"; CName "b_c"]; [CName "a_b"; CName "c"]] (1/4) []).
  rewrite !fitted_entries by (auto; lra). cbn [app combine].
  unfold get_feature_importances, get_normalized_values, rounds_to_zero. cbn [map snd sumR].
  rewrite Rabs_pos_eq by lra. rewrite (proj2 (Rleb_false _ _)) by lra. cbn.
  match_up.
Qed.

Lemma tiny_refuted : exists cfg features calc smooth calib rate loss prior fuel st groups d,
  well_shaped 1 features prior /\ one_per_bin features calc calib /\
  fit_main cfg features calc smooth calib rate loss fuel prior = Some (Ok st) /\
  map (joined "_") groups = map Some ["a"; "b"]%string /\
  get_feature_importances (set_feature_importances groups features (t_feats st) []) = Importances d /\
  0 < sumR (mean_abs_contributions features st) /\ sumR (map snd d) = 2/10000000.
Proof.
  exists i_cfg, i_feats, (ex_calc (1/10000000) 0), ex_smooth, ex_id, ex_rate, flat_loss, ex_prior, 6%nat, (i_state (1/10000000)),
    [named "a"; named "b"], [("a"%string, 1/10000000); ("b"%string, 1/10000000)].
  split; [apply i_well_shaped|]. split; [apply i_one_per_bin|]. split; [apply i_run; lra|].
  split; [reflexivity|].
  rewrite i_means by lra. split; [|split; cbn; lra].
  fold (fitted_once [named "a"; named "b"] (1/10000000) []).
  rewrite !fitted_entries by (auto; lra). cbn [app combine].
  unfold get_feature_importances, get_normalized_values, rounds_to_zero. cbn [map snd sumR].
  rewrite Rabs_pos_eq by lra. rewrite (proj2 (Rleb_iff _ _)) by lra. cbn. reflexivity.
Qed.

Lemma integers_refuted : exists cfg features calc smooth calib rate loss prior fuel st groups,
  well_shaped 1 features prior /\ one_per_bin features calc calib /\
  fit_main cfg features calc smooth calib rate loss fuel prior = Some (Ok st) /\
  groups = [[CIndex 0]; [CIndex 1]] /\
  get_feature_importances (set_feature_importances groups features (t_feats st) []) = JoinTypeError.
Proof.
  exists i_cfg, i_feats, (ex_calc (1/4) 0), ex_smooth, ex_id, ex_rate, flat_loss, ex_prior, 6%nat, (i_state (1/4)), [[CIndex 0]; [CIndex 1]].
  split; [apply i_well_shaped|]. split; [apply i_one_per_bin|]. split; [apply i_run; lra|]. split; [reflexivity|].
  fold (fitted_once [[CIndex 0]; [CIndex 1]] (1/4) []).
  rewrite fitted_entries by (auto; lra). cbn [app combine].
  unfold get_feature_importances, get_normalized_values, rounds_to_zero. cbn [map snd sumR].
  rewrite Rabs_pos_eq by lra. rewrite (proj2 (Rleb_false _ _)) by lra. reflexivity.
Qed.
