(** Several trainings of one estimator. *)
From Coq Require Import ZArith QArith List Bool Reals String Lra Lia Permutation.
From Verif.Proofs Require Import TrainFacts TrainExamples ImportanceFacts FrameFacts.
From Verif.Model Require Import Num LexBins Train Predict Link Estimators Gbs WholeFit Frames Importance Diagnostics Refit.
From Verif.Spec Require Import RefitSpec.
Import ListNotations.
Local Open Scope R_scope.

Lemma map_map2 {A B C D} (g : C -> D) (f : A -> B -> C) : forall a b, map g (map2 f a b) = map2 (fun x y => g (f x y)) a b.
Proof. induction a as [|x a IH]; intros [|y b]; cbn [map2 map]; [reflexivity..|]. rewrite IH. reflexivity. Qed.
Lemma map2_right {A B C} (g : B -> C) : forall (a : list A) b, List.length a = List.length b -> map2 (fun _ y => g y) a b = map g b.
Proof. induction a as [|x a IH]; intros [|y b] L; cbn in L |- *; try discriminate; [reflexivity|]. rewrite IH; [reflexivity|lia]. Qed.

Lemma rows_y columns T : map x_y (data_rows columns T) = map v_y T.
Proof. unfold data_rows. rewrite map_map2. cbn [x_y]. apply (map2_right v_y). apply seq_length. Qed.
Lemma rows_w columns T : map x_w (data_rows columns T) = map v_w T.
Proof. unfold data_rows. rewrite map_map2. cbn [x_w]. apply (map2_right v_w). apply seq_length. Qed.
Lemma rows_prior columns T : map x_prior (data_rows columns T) = map v_prior T.
Proof. unfold data_rows. rewrite map_map2. cbn [x_prior]. apply (map2_right v_prior). apply seq_length. Qed.

Lemma bind_length D gs : forall i, List.length (bind_groups D i gs) = List.length gs.
Proof. induction gs as [|g gs IH]; intro i; cbn [bind_groups List.length]; [reflexivity|]. rewrite IH. reflexivity. Qed.
Lemma new_states {A} (fl : list feature) : forall gl : list A, List.length fl = List.length gl ->
  present (bound_states fl (map (fun _ => None) gl)) = map init_fstate fl.
Proof.
  unfold bound_states. induction fl as [|f fl IH]; intros [|g gl] L; cbn in L |- *; try discriminate; [reflexivity|].
  rewrite IH by lia. reflexivity.
Qed.
Lemma present_some {A} (l : list A) : present (map Some l) = l.
Proof. induction l as [|x l IH]; cbn [map present]; [reflexivity|]. rewrite IH. reflexivity. Qed.

Section Facts.
Variable gm : R -> R.
Variable bppf : R -> R -> R -> R.
Variable erfinv : R -> R.
Variable bad : R.
Variable k : kind.
Variable prior_column : bool.
Variable cfg : settings.
Variable rate : nat -> nat -> R.
Variable accepted : list target -> bool.
Variable style : list label -> group.
Notation fit_object := (fit_object gm bppf erfinv bad k prior_column cfg rate accepted style).
Notation whole_fit gs := (whole_fit gm bppf erfinv bad k prior_column gs cfg rate).
Hypothesis no_gbs_prior : prior_column = true -> forall a, k <> GBSRegressor a.

(** The offset only matters with a prior prediction column, and then it is set. *)
Lemma offset_set columns T s (o : R) n : 
  prior_predictions s (if sets_offset k prior_column then kind_offset k s (map v_prior T) (map v_w T) else o)
    (linked_column k prior_column (data_rows columns T)) n =
  prior_predictions s (kind_offset k s (map v_prior T) (map v_w T)) (linked_column k prior_column (data_rows columns T)) n.
Proof.
  unfold sets_offset, linked_column. destruct prior_column eqn:P; [|reflexivity]. cbn [andb].
  destruct k eqn:K; try reflexivity. exfalso. apply (no_gbs_prior eq_refl regalpha). reflexivity.
Qed.
Lemma offset_set_predict s o o' ms X :
  (prior_column = true -> o = o') ->
  cb_predict (kind_output k) s o ms (linked_column k prior_column X) (map x_bins X) =
  cb_predict (kind_output k) s o' ms (linked_column k prior_column X) (map x_bins X).
Proof. intro H. unfold linked_column. destruct prior_column; [rewrite H by reflexivity; reflexivity|reflexivity]. Qed.

(** A training spelled out: what is read from the object, and what is not. *)
Lemma fit_eq fuel o gl d columns s : b_groups o = Some gl -> accepted (d_targets d) = true ->
  read_groups (d_cols d) gl = Some columns -> kind_scale k (map v_y (d_targets d)) (map v_w (d_targets d)) = Some s ->
  let T := d_targets d in
  let D := data_rows columns T in
  let gs := map style gl in
  let fl := bind_groups D 0 gs in
  let y := map v_y T in
  let w := map v_w T in
  let offset := kind_offset k s (map v_prior T) w in
  let p := {| p_factors := prior_predictions s offset (linked_column k prior_column D) (List.length D); p_exponents := zeros (List.length D) |} in
  let calc := fun i (_ : nat) p => map (estimate_value bad) (group_estimates gm bppf erfinv k fl y w i p) in
  let smooth := fun i (_ : nat) p => group_smoother gm bppf erfinv bad k gs fl y w i p in
  let loss := fun p => kind_loss bad k y w (p_factors p) in
  let seen := map (fun e => (fst e, fold_left (observe (fst e))
      (observe_calls cfg fl calc smooth (kind_calibration k fl w) rate loss fuel (loss p) (init_state fl loss p)) (snd e))) (b_records o) in
  exists o3, b_groups o3 = Some gl /\ b_scale o3 = Some s /\ b_bound o3 = fl /\ b_importances o3 = b_importances o /\
    (prior_column = true -> b_offset o3 = offset) /\
    fit_object fuel o d = match loop cfg fl calc smooth (kind_calibration k fl w) rate loss fuel (loss p) (init_state fl loss p) with
      | None => (Some Endless, o3)
      | Some (Raise e) => (Some (Training e), aborted o3 seen)
      | Some (Ok st) => (None, finished o3 st seen)
      end.
Proof.
  intros G A Rd K. cbv zeta. unfold Refit.fit_object. rewrite A. cbn [negb]. cbv zeta.
  assert (EG : default_groups (init_weights o (d_targets d)) (d_cols d) = gl) by (unfold default_groups; cbn [b_groups init_weights]; rewrite G; reflexivity).
  rewrite EG.
  change (b_scale (init_scale k prior_column (init_features (init_weights o (d_targets d)) gl) (d_targets d)))
    with (kind_scale k (map v_y (d_targets d)) (map v_w (d_targets d))).
  rewrite K, Rd. set (D := data_rows columns (d_targets d)). set (T := d_targets d) in *.
  set (fl := bind_groups D 0 (map style gl)).
  set (o2 := init_scale k prior_column (init_features (init_weights o T) gl) T).
  assert (EO : b_offset o2 = if sets_offset k prior_column then kind_offset k s (map v_prior T) (map v_w T) else b_offset o).
  { unfold o2, init_scale. cbn [b_offset init_features init_weights weights_of b_weights].
    change (weights_of (init_features (init_weights o T) gl)) with (map v_w T). rewrite K. reflexivity. }
  assert (EP : start_preds o2 s (linked_column k prior_column D) (List.length D) =
    {| p_factors := prior_predictions s (kind_offset k s (map v_prior T) (map v_w T)) (linked_column k prior_column D) (List.length D);
       p_exponents := zeros (List.length D) |}).
  { unfold start_preds. f_equal. rewrite EO. apply offset_set. }
  rewrite EP. set (p := {| p_factors := _; p_exponents := _ |}). set (o3 := start_main bad k o2 T fl p).
  change (weights_of o3) with (map v_w T).
  assert (ES : loop_state o3 p = init_state fl (fun p => kind_loss bad k (map v_y T) (map v_w T) (p_factors p)) p).
  { unfold loop_state, init_state. cbn [o3 start_main b_states b_iter b_diverging b_isdiv b_loss o2 init_scale init_features]. f_equal.
    apply new_states. unfold fl. rewrite bind_length, map_length. reflexivity. }
  rewrite ES. change (b_initial o3) with (kind_loss bad k (map v_y T) (map v_w T) (p_factors p)).
  change (b_records o3) with (b_records o).
  exists o3. split; [reflexivity|]. split; [exact K|]. split; [reflexivity|]. split; [reflexivity|]. split; [|reflexivity].
  intro P. change (b_offset o2 = kind_offset k s (map v_prior T) (map v_w T)). rewrite EO. unfold sets_offset. rewrite P. cbn [andb].
  destruct k eqn:EK; try reflexivity. exfalso. exact (no_gbs_prior P regalpha eq_refl).
Qed.

Lemma fit_refused fuel o d : accepted (d_targets d) = false -> fit_object fuel o d = (Some BadData, o).
Proof. intro A. unfold Refit.fit_object. rewrite A. reflexivity. Qed.
Lemma fit_no_scale fuel o gl d : b_groups o = Some gl -> accepted (d_targets d) = true ->
  kind_scale k (map v_y (d_targets d)) (map v_w (d_targets d)) = None -> fst (fit_object fuel o d) = Some NoScale.
Proof.
  intros G A K. unfold Refit.fit_object. rewrite A. cbn [negb]. cbv zeta.
  change (b_scale (init_scale k prior_column (init_features (init_weights o (d_targets d)) (default_groups (init_weights o (d_targets d)) (d_cols d))) (d_targets d)))
    with (kind_scale k (map v_y (d_targets d)) (map v_w (d_targets d))). rewrite K. reflexivity.
Qed.

(** The outcome of a training is that of the function [whole_fit] of settings and data. *)
Lemma fit_is_whole fuel o gl d columns : b_groups o = Some gl -> accepted (d_targets d) = true ->
  read_groups (d_cols d) gl = Some columns ->
  match whole_fit (map style gl) fuel (data_rows columns (d_targets d)) with
  | NoBaseline => fst (fit_object fuel o d) = Some NoScale
  | MoreIterations => fst (fit_object fuel o d) = Some Endless
  | Failed e => fst (fit_object fuel o d) = Some (Training e)
  | Trained m => fst (fit_object fuel o d) = None /\
      (let o' := snd (fit_object fuel o d) in
       b_groups o' = Some gl /\ b_scale o' = Some (o_scale m) /\ b_iter o' = o_iterations m /\ b_loss o' = o_loss m /\
       (prior_column = true -> b_offset o' = o_offset m) /\ map2 store (b_bound o') (present (b_states o')) = o_groups m)
  end.
Proof.
  intros G A Rd. unfold WholeFit.whole_fit, train, fit_main. cbv zeta. rewrite !rows_y, !rows_w, !rows_prior.
  destruct (kind_scale k (map v_y (d_targets d)) (map v_w (d_targets d))) as [s|] eqn:K; [|exact (fit_no_scale fuel o gl d G A K)].
  destruct (fit_eq fuel o gl d columns s G A Rd K) as (o3 & G3 & S3 & B3 & _ & P3 & E). rewrite E. clear E.
  match goal with |- context [loop ?a ?b ?c ?e ?f ?g ?h ?i ?j ?l] => destruct (loop a b c e f g h i j l) as [[st|e']|] end; [|reflexivity..].
  cbn [fst snd]. split; [reflexivity|]. cbv zeta.
  cbn [finished b_groups b_scale b_iter b_loss b_offset b_bound b_states o_scale o_iterations o_loss o_offset o_groups].
  split; [exact G3|]. split; [exact S3|]. split; [reflexivity|]. split; [reflexivity|]. split; [exact P3|].
  rewrite present_some, B3. reflexivity.
Qed.

(** ... and its prediction that of [whole_predict]. *)
Lemma predict_is_whole fuel o gl d columns m X rows : b_groups o = Some gl -> accepted (d_targets d) = true ->
  read_groups (d_cols d) gl = Some columns ->
  whole_fit (map style gl) fuel (data_rows columns (d_targets d)) = Trained m ->
  read_groups (d_cols X) gl = Some rows ->
  predict_frame k prior_column (snd (fit_object fuel o d)) X = Some (whole_predict k prior_column m (data_rows rows (d_targets X))).
Proof.
  intros G A Rd H RX. pose proof (fit_is_whole fuel o gl d columns G A Rd) as F. rewrite H in F. cbv zeta in F.
  destruct F as (_ & G1 & S1 & _ & _ & P1 & M1). unfold predict_frame. rewrite G1, RX. unfold predict_object. rewrite S1, M1. cbv zeta.
  f_equal. unfold whole_predict. apply offset_set_predict. exact P1.
Qed.

Lemma fit_no_column fuel o gl d : b_groups o = Some gl -> accepted (d_targets d) = true -> read_groups (d_cols d) gl = None ->
  fst (fit_object fuel o d) = match kind_scale k (map v_y (d_targets d)) (map v_w (d_targets d)) with Some _ => Some MissingColumn | None => Some NoScale end.
Proof.
  intros G A Rd. unfold Refit.fit_object. rewrite A. cbn [negb]. cbv zeta.
  assert (EG : default_groups (init_weights o (d_targets d)) (d_cols d) = gl) by (unfold default_groups; cbn [b_groups init_weights]; rewrite G; reflexivity).
  rewrite EG, Rd. 
  change (b_scale (init_scale k prior_column (init_features (init_weights o (d_targets d)) gl) (d_targets d)))
    with (kind_scale k (map v_y (d_targets d)) (map v_w (d_targets d))).
  destruct (kind_scale k (map v_y (d_targets d)) (map v_w (d_targets d))); reflexivity.
Qed.

(** Prediction depends on groups, scale, offset, bound features and states only. *)
Lemma predict_same o o' : b_groups o = b_groups o' -> b_scale o = b_scale o' -> (prior_column = true -> b_offset o = b_offset o') ->
  map2 store (b_bound o) (present (b_states o)) = map2 store (b_bound o') (present (b_states o')) ->
  forall X, predict_frame k prior_column o X = predict_frame k prior_column o' X.
Proof.
  intros G S P M X. unfold predict_frame. rewrite G. destruct (b_groups o') as [gl|]; [|reflexivity].
  destruct (read_groups (d_cols X) gl) as [c|]; [|reflexivity]. unfold predict_object. rewrite S, M.
  destruct (b_scale o'); [|reflexivity]. cbv zeta. f_equal. apply offset_set_predict. exact P.
Qed.

(** Whatever the object went through before. *)
Lemma refit_same fuel o gl d : b_groups o = Some gl ->
  fst (fit_object fuel o d) = fst (fit_object fuel (fresh gl) d) /\
  (fst (fit_object fuel (fresh gl) d) = None -> same_model k prior_column (snd (fit_object fuel o d)) (snd (fit_object fuel (fresh gl) d))).
Proof.
  intro G. assert (F : b_groups (fresh gl) = Some gl) by reflexivity.
  destruct (accepted (d_targets d)) eqn:A.
  2:{ rewrite (fit_refused _ _ _ A), (fit_refused fuel (fresh gl) d A). split; [reflexivity|discriminate]. }
  destruct (read_groups (d_cols d) gl) as [columns|] eqn:Rd.
  2:{ rewrite (fit_no_column fuel o gl d G A Rd), (fit_no_column fuel (fresh gl) gl d F A Rd). split; [reflexivity|].
      destruct (kind_scale k _ _); discriminate. }
  pose proof (fit_is_whole fuel o gl d columns G A Rd) as H1. pose proof (fit_is_whole fuel (fresh gl) gl d columns F A Rd) as H2.
  destruct (whole_fit (map style gl) fuel (data_rows columns (d_targets d))) as [|e| |m]; try (rewrite H1, H2; split; [reflexivity|discriminate]).
  cbv zeta in H1, H2. destruct H1 as (E1 & G1 & S1 & I1 & L1 & P1 & M1). destruct H2 as (E2 & G2 & S2 & I2 & L2 & P2 & M2).
  rewrite E1, E2. split; [reflexivity|]. intros _. unfold same_model. rewrite G1, G2, S1, S2, I1, I2, L1, L2.
  split; [reflexivity|]. split; [reflexivity|]. split; [reflexivity|]. split; [reflexivity|].
  apply predict_same; [congruence..| |congruence]. intro P. rewrite P1, P2 by exact P. reflexivity.
Qed.

(** Feature groups are set once. *)
Lemma groups_stay fuel o gl d : b_groups o = Some gl -> b_groups (snd (fit_object fuel o d)) = Some gl.
Proof.
  intro G. unfold Refit.fit_object. destruct (accepted (d_targets d)); [|exact G]. cbn [negb]. cbv zeta.
  assert (EG : default_groups (init_weights o (d_targets d)) (d_cols d) = gl) by (unfold default_groups; cbn [b_groups init_weights]; rewrite G; reflexivity).
  rewrite EG. destruct (b_scale _); [|reflexivity]. destruct (read_groups _ _); [|reflexivity].
  match goal with |- context [loop ?a ?b ?c ?e ?f ?g ?h ?i ?j ?l] => destruct (loop a b c e f g h i j l) as [[st|e']|] end; reflexivity.
Qed.
Lemma groups_kept fuel history : forall o gl, b_groups o = Some gl ->
  b_groups (trained_on (fit_object fuel) history o) = Some gl.
Proof. unfold trained_on. induction history as [|d h IH]; intros o gl G; cbn [fold_left]; [exact G|]. apply IH. apply groups_stay. exact G. Qed.
Lemma history_same fuel history obs gl d :
  let o := trained_on (fit_object fuel) history (new_object (Some gl) obs) in
  fst (fit_object fuel o d) = fst (fit_object fuel (fresh gl) d) /\
  (fst (fit_object fuel (fresh gl) d) = None -> same_model k prior_column (snd (fit_object fuel o d)) (snd (fit_object fuel (fresh gl) d))).
Proof. cbv zeta. apply refit_same. apply groups_kept. reflexivity. Qed.

(** Without given groups, the first training that passes the checks fixes them. *)
Lemma groups_fixed fuel o d : b_groups o = None -> accepted (d_targets d) = true ->
  b_groups (snd (fit_object fuel o d)) = Some (one_each d).
Proof.
  intros G A. unfold Refit.fit_object. rewrite A. cbn [negb]. cbv zeta.
  assert (EG : default_groups (init_weights o (d_targets d)) (d_cols d) = one_each d) by (unfold default_groups; cbn [b_groups init_weights]; rewrite G; reflexivity).
  rewrite EG. destruct (b_scale _); [|reflexivity]. destruct (read_groups _ _); [|reflexivity].
  match goal with |- context [loop ?a ?b ?c ?e ?f ?g ?h ?i ?j ?l] => destruct (loop a b c e f g h i j l) as [[st|e']|] end; reflexivity.
Qed.
Lemma first_frame_decides fuel obs first rest d : accepted (d_targets first) = true ->
  let o := trained_on (fit_object fuel) (first :: rest) (new_object None obs) in
  fst (fit_object fuel o d) = fst (fit_object fuel (fresh (one_each first)) d) /\
  (fst (fit_object fuel (fresh (one_each first)) d) = None ->
   same_model k prior_column (snd (fit_object fuel o d)) (snd (fit_object fuel (fresh (one_each first)) d))).
Proof. intro A. cbv zeta. apply refit_same. unfold trained_on. cbn [fold_left]. apply groups_kept. apply groups_fixed; [reflexivity|exact A]. Qed.

(** ** Observers and importances are extended. *)
Lemma observe_joint wanted calls : forall r r' j, continued r r' j ->
  continued r (fold_left (observe wanted) calls r') (fold_left (observe wanted) calls j).
Proof.
  induction calls as [|[it st] calls IH]; intros r r' j H; cbn [fold_left]; [exact H|]. apply IH.
  destruct H as [H1 H2]. unfold continued, observe. cbn [r_loss r_change]. rewrite H1, H2. split.
  - destruct ((it <=? wanted)%Z && negb (it =? -1)%Z || (wanted =? -1)%Z); [symmetry; apply app_assoc|reflexivity].
  - destruct (((it <=? wanted)%Z && negb (it =? -1)%Z || (wanted =? -1)%Z) && negb (it =? 0)%Z); [symmetry; apply app_assoc|reflexivity].
Qed.

Lemma fit_success fuel o gl d : b_groups o = Some gl -> fst (fit_object fuel o d) = None ->
  exists calls entries, forall o', b_groups o' = Some gl ->
    b_records (snd (fit_object fuel o' d)) = map (fun e => (fst e, fold_left (observe (fst e)) calls (snd e))) (b_records o') /\
    b_importances (snd (fit_object fuel o' d)) = b_importances o' ++ entries.
Proof.
  intros G H. destruct (accepted (d_targets d)) eqn:A.
  2:{ rewrite (fit_refused _ _ _ A) in H. discriminate. }
  destruct (kind_scale k (map v_y (d_targets d)) (map v_w (d_targets d))) as [s|] eqn:K.
  2:{ rewrite (fit_no_scale fuel o gl d G A K) in H. discriminate. }
  destruct (read_groups (d_cols d) gl) as [columns|] eqn:Rd.
  2:{ exfalso. revert H. rewrite (fit_no_column fuel o gl d G A Rd), K. discriminate. }
  destruct (fit_eq fuel o gl d columns s G A Rd K) as (o3 & _ & _ & _ & _ & _ & E). rewrite E in H. clear E.
  revert H. match goal with |- context [loop ?a ?b ?c ?e ?f ?g ?h ?i ?j ?l] => destruct (loop a b c e f g h i j l) as [[st|e']|] eqn:L; intro H end;
    try discriminate. clear H.
  match type of L with loop ?a ?b ?c ?e ?f ?g ?h ?i ?j ?l = _ => exists (observe_calls a b c e f g h i j l) end.
  match goal with |- context [observe_calls _ ?fl] => exists (set_feature_importances (map (map column_of) gl) fl (t_feats st) []) end.
  intros o' G'. destruct (fit_eq fuel o' gl d columns s G' A Rd K) as (o4 & G4 & _ & B4 & I4 & _ & E). rewrite E, L. clear E.
  cbn [snd finished b_records b_importances]. split; [reflexivity|]. rewrite G4, B4, I4. reflexivity.
Qed.

Lemma records_continue fuel o gl d wanted r : b_groups o = Some gl -> b_records o = [(wanted, r)] ->
  fst (fit_object fuel o d) = None ->
  exists r' joint, b_records (snd (fit_object fuel (new_object (Some gl) [(wanted, new_record)]) d)) = [(wanted, r')] /\
    b_records (snd (fit_object fuel o d)) = [(wanted, joint)] /\ continued r r' joint.
Proof.
  intros G B H. destruct (fit_success fuel o gl d G H) as (calls & entries & F).
  exists (fold_left (observe wanted) calls new_record), (fold_left (observe wanted) calls r).
  split; [apply (F (new_object (Some gl) [(wanted, new_record)]) eq_refl)|].
  split; [rewrite (proj1 (F o G)), B; reflexivity|].
  apply observe_joint. split; cbn [new_record r_loss r_change]; rewrite app_nil_r; reflexivity.
Qed.
Lemma importances_continue fuel o gl d : b_groups o = Some gl -> fst (fit_object fuel o d) = None ->
  b_importances (snd (fit_object fuel o d)) = b_importances o ++ b_importances (snd (fit_object fuel (fresh gl) d)).
Proof.
  intros G H. destruct (fit_success fuel o gl d G H) as (calls & entries & F).
  rewrite (proj2 (F o G)), (proj2 (F (fresh gl) eq_refl)). reflexivity.
Qed.
End Facts.

(** Entries given twice: the shares are halved. *)
Lemma dict_set_same {A} (d : list (string * A)) n v : dict_get d n = Some v -> dict_set d n v = d.
Proof.
  induction d as [|[n' v'] d IH]; intro H; [discriminate|]. cbn [dict_get dict_set] in *. destruct (String.eqb_spec n n') as [->|].
  - injection H as ->. reflexivity.
  - rewrite IH by exact H. reflexivity.
Qed.
Lemma dict_of_same {A} (l : list (string * A)) : forall d, (forall n v, In (n, v) l -> dict_get d n = Some v) ->
  dict_of d (map (fun e => (Some (fst e), snd e)) l) = Some d.
Proof.
  induction l as [|[n v] l IH]; intros d H; cbn [map dict_of fst snd]; [reflexivity|].
  rewrite (dict_set_same d n v) by (apply H; left; reflexivity). apply IH. intros; apply H; right; assumption.
Qed.
Lemma dict_get_in {A} (d : list (string * A)) : NoDup (map fst d) -> forall n v, In (n, v) d -> dict_get d n = Some v.
Proof.
  induction d as [|[n' v'] d IH]; intros N n v H; [contradiction|]. cbn [map fst] in N. apply NoDup_cons_iff in N. destruct N as [N1 N2]. cbn [dict_get].
  destruct H as [E|H]; [injection E as -> ->; rewrite String.eqb_refl; reflexivity|].
  destruct (String.eqb_spec n n') as [->|]; [exfalso; apply N1; apply in_map_iff; exists (n', v); auto|apply IH; auto].
Qed.
Lemma dict_of_app {A} (a b : list (option string * A)) : forall d d', dict_of d a = Some d' -> dict_of d (a ++ b) = dict_of d' b.
Proof.
  induction a as [|[[n|] v] a IH]; intros d d' H; cbn [dict_of app] in *; [injection H as ->; reflexivity|apply IH; exact H|discriminate].
Qed.
Lemma combine_some {A} (names : list string) (vals : list A) : combine (map Some names) vals = map (fun e => (Some (fst e), snd e)) (combine names vals).
Proof. revert vals. induction names as [|n names IH]; intros [|v vals]; cbn; [reflexivity..|]. rewrite IH. reflexivity. Qed.
Lemma combine_app {A B} (a a' : list A) : forall (b b' : list B), List.length a = List.length b -> combine (a ++ a') (b ++ b') = combine a b ++ combine a' b'.
Proof. induction a as [|x a IH]; intros [|y b] b' L; cbn in *; try discriminate; [reflexivity|]. rewrite IH by lia. reflexivity. Qed.

Lemma shares_twice (E : importances) names shares : map (fun e => joined "_" (fst e)) E = map Some names -> NoDup names ->
  get_feature_importances E = Importances shares -> sumR (map snd shares) = 1 ->
  get_feature_importances (E ++ E) = Importances (map (fun e => (fst e, snd e / 2)) shares).
Proof.
  intros N D H S. assert (L : List.length names = List.length E) by (rewrite <- (map_length Some names), <- N, map_length; reflexivity).
  destruct E as [|e E0] eqn:EE; [discriminate|]. rewrite <- EE in *.
  assert (H' : dict_of [] (combine (map Some names) (get_normalized_values (map snd E))) = Some shares).
  { revert H. unfold get_feature_importances. rewrite EE. rewrite <- EE. rewrite N.
    destruct (dict_of [] _) as [dd|]; intro H; [|discriminate]. congruence. }
  rewrite dict_of_distinct in H'; [|rewrite normalized_length, map_length; exact L|exact D]. cbn [app] in H'. injection H' as H'.
  set (raw := map snd E) in *. assert (LR : List.length names = List.length raw) by (unfold raw; rewrite map_length; exact L).
  assert (S' : sumR (get_normalized_values raw) = 1).
  { rewrite <- S, <- H'. rewrite snd_combine; [reflexivity|rewrite normalized_length; exact LR]. }
  assert (V : get_normalized_values raw = map (fun v => v / sumR raw) raw /\ rounds_to_zero (sumR raw) = false).
  { unfold get_normalized_values in *. cbv zeta in *. destruct (rounds_to_zero (sumR raw)) eqn:Z; [|split; reflexivity]. exfalso.
    unfold rounds_to_zero in Z. rewrite S' in Z. apply Rleb_iff in Z. rewrite Rabs_R1 in Z. lra. }
  destruct V as [V Z].
  assert (V2 : get_normalized_values (raw ++ raw) = map (fun v => v / sumR raw / 2) (raw ++ raw)).
  { unfold get_normalized_values. cbv zeta. rewrite sumR_app.
    assert (NZ : sumR raw <> 0). { intro Q. unfold rounds_to_zero in Z. rewrite Q, Rabs_R0 in Z. apply Rleb_false in Z. lra. }
    assert (Z2 : rounds_to_zero (sumR raw + sumR raw) = false).
    { unfold rounds_to_zero in *. apply Rleb_false. apply Rleb_false in Z. replace (sumR raw + sumR raw) with (2 * sumR raw) by lra.
      rewrite Rabs_mult, (Rabs_pos_eq 2) by lra. lra. }
    rewrite Z2. apply map_ext. intro v. field. split; [exact NZ|lra]. }
  unfold get_feature_importances. rewrite EE at 1. cbn [app]. rewrite !map_app. rewrite N. fold raw. rewrite V2, map_app.
  rewrite combine_app by (rewrite map_length, map_length; exact LR).
  erewrite dict_of_app by (apply dict_of_distinct; [rewrite map_length; exact LR|exact D]). cbn [app].
  rewrite combine_some. rewrite dict_of_same.
  - f_equal. rewrite <- H', V. clear -LR. generalize (sumR raw). clearbody raw. intro t. revert raw LR.
    induction names as [|n names IH]; intros [|v raw] L; cbn in *; try discriminate; [reflexivity|]. rewrite IH by lia. reflexivity.
  - apply dict_get_in. rewrite fst_combine; [exact D|rewrite map_length; exact LR].
Qed.

Section Twice.
Variables (gm : R -> R) (bppf : R -> R -> R -> R) (erfinv : R -> R) (bad : R) (k : kind) (prior : bool) (cfg : settings)
  (rate : nat -> nat -> R) (accepted : list target -> bool) (style : list label -> group).
Notation fit_object := (fit_object gm bppf erfinv bad k prior cfg rate accepted style).
Lemma shares_halved fuel gl d names shares : (prior = true -> forall a, k <> GBSRegressor a) ->
  fst (fit_object fuel (fresh gl) d) = None ->
  let once := snd (fit_object fuel (fresh gl) d) in
  map (fun e => joined "_" (fst e)) (b_importances once) = map Some names -> NoDup names ->
  get_feature_importances (b_importances once) = Importances shares -> sumR (map snd shares) = 1 ->
  get_feature_importances (b_importances (snd (fit_object fuel once d))) = Importances (map (fun e => (fst e, snd e / 2)) shares).
Proof.
  intros Hg H. cbv zeta. intros N D G S. set (once := snd (fit_object fuel (fresh gl) d)) in *.
  assert (GO : b_groups once = Some gl) by (apply groups_stay; reflexivity).
  assert (HO : fst (fit_object fuel once d) = None) by (rewrite (proj1 (refit_same gm bppf erfinv bad k prior cfg rate accepted style Hg fuel once gl d GO)); exact H).
  rewrite (importances_continue gm bppf erfinv bad k prior cfg rate accepted style Hg fuel once gl d GO HO). fold once.
  apply (shares_twice _ names shares N D G S).
Qed.
End Twice.

(** ** The order of the columns *)
Lemma get_permuted {A} (cols cols' : list (label * A)) c : NoDup (map fst cols) -> Permutation cols cols' ->
  get_column cols c = get_column cols' c.
Proof.
  intros N P. assert (N' : NoDup (map fst cols')) by (apply (Permutation_NoDup (Permutation_map fst P)); exact N).
  destruct (get_column cols c) as [v|] eqn:E.
  - symmetry. apply get_of_in; [exact N'|]. apply (Permutation_in _ P). apply get_in. exact E.
  - symmetry. apply get_none. apply get_none in E. intro I. apply E. apply (Permutation_in _ (Permutation_sym (Permutation_map fst P))). exact I.
Qed.
Lemma read_columns_permuted cols cols' names : NoDup (map fst cols) -> Permutation cols cols' -> read_columns cols names = read_columns cols' names.
Proof. intros N P. induction names as [|c r IH]; cbn [read_columns]; [reflexivity|]. rewrite (get_permuted cols cols' c N P), IH. reflexivity. Qed.
Lemma read_groups_permuted cols cols' gl : NoDup (map fst cols) -> Permutation cols cols' -> read_groups cols gl = read_groups cols' gl.
Proof. intros N P. induction gl as [|g r IH]; cbn [read_groups]; [reflexivity|]. rewrite (read_columns_permuted cols cols' g N P), IH. reflexivity. Qed.

Lemma fit_permuted gm bppf erfinv bad k prior cfg rate accepted style fuel o gl d cols : b_groups o = Some gl ->
  NoDup (map fst (d_cols d)) -> Permutation (d_cols d) cols ->
  fit_object gm bppf erfinv bad k prior cfg rate accepted style fuel o (with_columns d cols) =
  fit_object gm bppf erfinv bad k prior cfg rate accepted style fuel o d.
Proof.
  intros G N P. unfold fit_object. cbn [with_columns d_targets d_cols]. unfold default_groups. cbn [b_groups init_weights]. rewrite G.
  rewrite <- (read_groups_permuted _ _ gl N P). reflexivity.
Qed.
Lemma predict_permuted k prior o X cols : NoDup (map fst (d_cols X)) -> Permutation (d_cols X) cols ->
  predict_frame k prior o (with_columns X cols) = predict_frame k prior o X.
Proof.
  intros N P. unfold predict_frame. destruct (b_groups o) as [gl|]; [|reflexivity]. cbn [with_columns d_cols d_targets].
  rewrite <- (read_groups_permuted _ _ gl N P). reflexivity.
Qed.
