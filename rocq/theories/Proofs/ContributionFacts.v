(** The reported contributions explain the prediction; examples of bookings. *)
From Coq Require Import ZArith QArith List Bool String Reals Lia Lra.
From Verif.Model Require Import Num LexBins Train Predict Importance.
From Verif.Spec Require Import TrainSpec PredictSpec ImportanceSpec.
From Verif.Proofs Require Import TrainFacts TrainExamples PredictFacts NeutralFacts PredictExamples ImportanceFacts BookingFacts.
Import ListNotations.
Local Open Scope R_scope.

Lemma items_keys unlink X ms : forall i groups, List.length groups = List.length ms ->
  map fst (contribution_items unlink i groups ms X) = map2 contribution_key groups (map m_ext ms).
Proof.
  induction ms as [|m ms IH]; intros i [|g gs] L; try discriminate; auto. cbn. f_equal. apply IH. cbn in L; lia.
Qed.
Lemma items_combine unlink X ms : forall i groups,
  contribution_items unlink i groups ms X =
  combine (map fst (contribution_items unlink i groups ms X)) (map snd (contribution_items unlink i groups ms X)).
Proof. induction ms as [|m ms IH]; intros i [|g gs]; auto. cbn. f_equal. apply IH. Qed.

Lemma items_sum unlink link X j ms : (forall x, link (unlink x) = x) -> (j < List.length X)%nat ->
  forall i groups, List.length groups = List.length ms -> (forall m, In m ms -> m_ext m = false) ->
  sumR (map (fun v => link (nth j v 0)) (map snd (contribution_items unlink i groups ms X))) =
  group_sum alone false i ms (nth j X (fun _ => [])).
Proof.
  intros Hl Hj. induction ms as [|m ms IH]; intros i [|g gs] L He; try discriminate; auto.
  cbn [contribution_items map snd sumR group_sum]. rewrite (He m (or_introl eq_refl)). cbn [Bool.eqb].
  rewrite IH; [|cbn in L; lia|intros; apply He; right; auto]. f_equal.
  rewrite predict_factors_rowpred, !map_map.
  assert (G : forall (Y : list datarow) k, (k < List.length Y)%nat ->
    nth k (map (fun x : datarow => unlink (rowpred m (x i))) Y) 0 = unlink (rowpred m (nth k Y (fun _ => []) i))).
  { clear. induction Y as [|y Y IH]; intros [|k] H; cbn in *; try lia; auto. apply IH. lia. }
  transitivity (link (unlink (rowpred m (nth j X (fun _ => []) i)))); [f_equal; exact (G X j Hj)|].
  rewrite Hl, alone_rowpred. reflexivity.
Qed.

Lemma contributions_explain unlink link scale offset ms linked X groups names :
  (forall x, link (unlink x) = x) -> (forall l, linked = Some l -> List.length l = List.length X) ->
  List.length groups = List.length ms -> (forall m, In m ms -> m_ext m = false) ->
  map2 contribution_key groups (map m_ext ms) = map Some names -> NoDup names ->
  exists columns, get_feature_contributions unlink groups ms X = Some (combine names columns) /\
    List.length columns = List.length names /\
    forall j, (j < List.length X)%nat ->
    link (nth j (cb_predict unlink scale offset ms linked X) 0) =
    prior_of scale offset linked j + sumR (map (fun c => link (nth j c 0)) columns).
Proof.
  intros Hl Hp Lg He Hn Nd. exists (map snd (contribution_items unlink 0 groups ms X)).
  assert (L : List.length (map snd (contribution_items unlink 0 groups ms X)) = List.length names).
  { rewrite <- (map_length Some names), <- Hn, <- (items_keys unlink X ms 0 groups Lg), !map_length. reflexivity. }
  split.
  { unfold get_feature_contributions. rewrite items_combine, items_keys by auto. rewrite Hn.
    rewrite snd_combine by (rewrite map_length; lia). rewrite dict_of_distinct; [reflexivity|lia|exact Nd]. }
  split; [exact L|].
  intros j Hj. destruct (predict_rows unlink scale offset ms linked X Hp) as [_ P].
  rewrite (nth_error_nth _ _ 0 (P j (nth j X (fun _ => [])) (nth_error_nth' X (fun _ => []) Hj))).
  rewrite Hl. f_equal. symmetry. apply (items_sum unlink link X j ms Hl Hj 0%nat groups Lg He).
Qed.

(** For the logarithmic link the prediction is the product. *)
Fixpoint prodR (l : list R) : R := match l with [] => 1 | x :: r => x * prodR r end.
Lemma prod_exp l : (forall x, In x l -> 0 < x) -> exp (sumR (map ln l)) = prodR l.
Proof.
  induction l as [|x l IH]; intro H; cbn; [apply exp_0|]. rewrite exp_plus, IH, exp_ln; auto; [apply H; left; auto|].
  intros y Hy. apply H. right; auto.
Qed.

(** ** Examples *)
Definition x_rows : list datarow := [fun _ => [Fin 0%Q]; fun _ => [NaN]].
Definition x_model (a : R) : trained := {| m_dim := 1; m_nbins := [1%Z]; m_ext := false; m_values := [a]; m_missing := 0; m_smoother := true |}.
Lemma ex_c50 : get_feature_contributions exp [[CName "a"]; [CName "b"]] [x_model 2; x_model 3] x_rows =
    Some [("a"%string, [exp 2; exp 0]); ("b"%string, [exp 3; exp 0])] /\
  cb_predict exp 1 0 [x_model 2; x_model 3] None x_rows = [exp 6; exp 1].
Proof.
  split; lazy -[exp Rplus Rmult IZR]; match_up.
Qed.

Lemma contributions_refuted : exists groups ms X d,
  NoDup groups /\ List.length groups = List.length ms /\ List.length X = 1%nat /\
  get_feature_contributions exp groups ms X = Some d /\ List.length d = 1%nat /\
  nth 0 (cb_predict exp 0 0 ms None X) 0 = exp 5 /\ sumR (map (fun kv => ln (nth 0 (snd kv) 0)) d) = 3.
Proof.
  exists [[CName "a b"]; [CName "a"; CName "b"]], [x_model 2; x_model 3], [fun _ => [Fin 0%Q]], [("a b"%string, [exp 3])].
  split. { constructor; [intros [H|[]]; discriminate|]. constructor; [intros []|constructor]. }
  split; [reflexivity|]. split; [reflexivity|].
  split; [lazy -[exp Rplus Rmult IZR]; match_up|]. split; [reflexivity|].
  split; [lazy -[exp Rplus Rmult IZR]; match_up|].
  cbn. rewrite ln_exp. lra.
Qed.

(** A category with the name of a column of the frame. *)
Lemma reserved_refuted : exists cats d d' b,
  d = frame_factors [0] /\ b_remove b = false /\ b_ext b = false /\ b_values b = [1] /\
  category_of (Some cats) (b_group b) "factors" /\
  bookings (Some cats) d [b] = Some d' /\ predict_link_factors d' = Some [2].
Proof.
  exists (fun _ => Some "factors"%string), (frame_factors [0]),
    (set_col (set_col (frame_factors [0]) "factors" [0 + 1]) "factors" [0 + 1 + 1]),
    {| b_remove := false; b_values := [1]; b_group := ["x"%string]; b_ext := false |}.
  split; [reflexivity|]. split; [reflexivity|]. split; [reflexivity|]. split; [reflexivity|].
  split; [exists (fun _ => Some "factors"%string); auto|]. split; [reflexivity|].
  cbn. match_up.
Qed.

(** Removing a contribution of a category that has no column yet. *)
Lemma removal_refuted : exists cats d d' b,
  d = frame_factors [0] /\ b_remove b = true /\ b_ext b = false /\ b_values b = [1] /\
  category_of (Some cats) (b_group b) "promotion" /\
  bookings (Some cats) d [b] = Some d' /\ entry d' "factors" 0 = -1 /\ entry d' "promotion" 0 = 1.
Proof.
  exists (fun _ => Some "promotion"%string), (frame_factors [0]),
    (set_col (set_col (frame_factors [0]) "factors" [0 - 1]) "promotion" [1]),
    {| b_remove := true; b_values := [1]; b_group := ["x"%string]; b_ext := false |}.
  split; [reflexivity|]. split; [reflexivity|]. split; [reflexivity|]. split; [reflexivity|].
  split; [exists (fun _ => Some "promotion"%string); auto|]. split; [reflexivity|].
  split; cbn; lra.
Qed.

Definition x_cats (k : cat_key) : option string :=
  match k with
  | KName s => if String.eqb s "promo" then Some "price"%string else None
  | KTuple [s; _] => if String.eqb s "store" then Some "base demand"%string else None
  | KTuple _ => None
  end.
Definition x_bookings : list booking :=
  [{| b_remove := false; b_values := [1; 2]; b_group := ["promo"%string]; b_ext := false |};
   {| b_remove := false; b_values := [1/2; 1/4]; b_group := ["store"; "day"]%string; b_ext := false |};
   {| b_remove := false; b_values := [7; 8]; b_group := ["elasticity"]%string; b_ext := true |}].
Lemma ex_c26 : exists d', bookings (Some x_cats) (frame_price [3; 3] [1; 1] [0; 0]) x_bookings = Some d' /\
  entry d' "factors" 1 = 5 + 1/4 /\ entry d' "price" 1 = 2 /\ entry d' "base demand" 1 = 1/4 /\ entry d' "exponents" 0 = 7.
Proof.
  eexists. split; [reflexivity|]. repeat split; cbn; lra.
Qed.
Lemma x_rows2 : frame_rows 2 (frame_price [3; 3] [1; 1] [0; 0]).
Proof.
  intros c v H. unfold frame_price, set_col in H.
  repeat match type of H with context [String.eqb ?a ?b] => destruct (String.eqb a b); [injection H as <-; reflexivity|] end. discriminate.
Qed.

Lemma string_app_length a b : String.length (a ++ b) = (String.length a + String.length b)%nat.
Proof. induction a as [|c a IH]; cbn; [reflexivity|]. rewrite IH. reflexivity. Qed.
Lemma external_apart g name name' :
  contribution_key g false = Some name -> contribution_key g true = Some name' -> name <> name'.
Proof.
  unfold contribution_key. destruct (joined " " g) as [s|]; [|discriminate]. intros E E'. injection E as <-. injection E' as <-.
  intros H. apply (f_equal String.length) in H. rewrite !string_app_length in H. cbn in H. lia.
Qed.
