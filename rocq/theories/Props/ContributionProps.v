(** C25, C26, C50: importances, booking of contributions, explanations. *)
From Coq Require Import ZArith QArith List Bool String Reals.
From Verif.Model Require Import Num LexBins Train Predict Importance.
From Verif.Spec Require Import TrainSpec PredictSpec ImportanceSpec.
From Verif.Proofs Require Import TrainExamples ImportanceFacts ImportanceExamples BookingFacts ContributionFacts.
Import ListNotations.
Local Open Scope R_scope.

(** ** C25 *)
(** What holds: for one fit of an estimator whose feature groups have distinct
    joined names, every group gets a non-negative number, its share of the mean
    absolute contributions, and the numbers sum to one if the mean absolute
    contributions sum to more than 0.5e-6. Missing: the four refutations below. *)
Theorem C25_importances_partial : forall cfg features calc smooth calib rate loss prior N,
  well_shaped N features prior -> one_per_bin features calc calib ->
  (forall f, In f features -> (1 <= f_dim f)%nat) ->
  forall fuel st, fit_main cfg features calc smooth calib rate loss fuel prior = Some (Ok st) ->
  forall groups names, List.length groups = List.length features -> features <> [] ->
  map (joined "_") groups = map Some names -> NoDup names ->
  exists values,
    get_feature_importances (set_feature_importances groups features (t_feats st) []) = Importances (combine names values) /\
    List.length values = List.length names /\
    (forall x, In x values -> 0 <= x) /\
    (1/2000000 < sumR (mean_abs_contributions features st) ->
      values = map (fun v => v / sumR (mean_abs_contributions features st)) (mean_abs_contributions features st) /\
      sumR values = 1) /\
    (sumR (mean_abs_contributions features st) <= 1/2000000 -> values = mean_abs_contributions features st).
Proof. exact importances_one_fit. Qed.
Print Assumptions C25_importances_partial.

(** Fitting an estimator again keeps the entries of the earlier fit. *)
Theorem C25_second_fit_refuted : exists cfg features calc smooth calib rate loss prior fuel st groups d,
  well_shaped 1 features prior /\ one_per_bin features calc calib /\
  fit_main cfg features calc smooth calib rate loss fuel prior = Some (Ok st) /\
  map (joined "_") groups = map Some ["a"; "b"]%string /\
  get_feature_importances (set_feature_importances groups features (t_feats st)
    (set_feature_importances groups features (t_feats st) [])) = Importances d /\
  mean_abs_contributions features st = [1/4; 1/4] /\ sumR (map snd d) = 1/2.
Proof. exact refit_refuted. Qed.
Print Assumptions C25_second_fit_refuted.

(** Two different feature groups with the same joined name. *)
Theorem C25_joined_names_refuted : exists cfg features calc smooth calib rate loss prior fuel st groups d,
  well_shaped 1 features prior /\ one_per_bin features calc calib /\
  fit_main cfg features calc smooth calib rate loss fuel prior = Some (Ok st) /\
  List.length features = 2%nat /\ List.length groups = 2%nat /\ NoDup groups /\
  get_feature_importances (set_feature_importances groups features (t_feats st) []) = Importances d /\
  List.length d = 1%nat /\ sumR (map snd d) = 1/2.
Proof. exact collision_refuted. Qed.
Print Assumptions C25_joined_names_refuted.

(** Small contributions are not normalised. *)
Theorem C25_small_contributions_refuted : exists cfg features calc smooth calib rate loss prior fuel st groups d,
  well_shaped 1 features prior /\ one_per_bin features calc calib /\
  fit_main cfg features calc smooth calib rate loss fuel prior = Some (Ok st) /\
  map (joined "_") groups = map Some ["a"; "b"]%string /\
  get_feature_importances (set_feature_importances groups features (t_feats st) []) = Importances d /\
  0 < sumR (mean_abs_contributions features st) /\ sumR (map snd d) = 2/10000000.
Proof. exact tiny_refuted. Qed.
Print Assumptions C25_small_contributions_refuted.

(** Integer column names cannot be joined. *)
Theorem C25_integer_columns_refuted : exists cfg features calc smooth calib rate loss prior fuel st groups,
  well_shaped 1 features prior /\ one_per_bin features calc calib /\
  fit_main cfg features calc smooth calib rate loss fuel prior = Some (Ok st) /\
  groups = [[CIndex 0]; [CIndex 1]] /\
  get_feature_importances (set_feature_importances groups features (t_feats st) []) = JoinTypeError.
Proof. exact integers_refuted. Qed.
Print Assumptions C25_integer_columns_refuted.

Example c25_example : 
  fit_main i_cfg i_feats (ex_calc (1/4) 0) ex_smooth ex_id ex_rate flat_loss 6 ex_prior = Some (Ok (i_state (1/4))) /\
  get_feature_importances (set_feature_importances [named "a"; named "b"] i_feats (t_feats (i_state (1/4))) []) =
  Importances [("a"%string, 1/2); ("b"%string, 1/2)].
Proof. exact (conj (i_run (1/4) ltac:(Lra.lra)) ex_c25). Qed.

(** ** C26 *)
(** Any sequence of inclusions and removals, with or without categories: the
    columns of the link prediction are the initial ones plus the signed sum. *)
Theorem C26_sum_of_contributions : forall cats n l d d', frame_rows n d ->
  (forall b, In b l -> List.length (b_values b) = n) ->
  bookings cats d l = Some d' -> (forall b c, In b l -> category_of cats (b_group b) c -> ~ reserved c) ->
  frame_rows n d' /\
  (forall j, entry d' "factors" j = entry d "factors" j + booked_sum (fun b => negb (b_ext b)) l j) /\
  (forall j, entry d' "exponents" j = entry d "exponents" j + booked_sum b_ext l j) /\
  d' "prior_exponents"%string = d "prior_exponents"%string /\ d' "base"%string = d "base"%string.
Proof. exact bookings_sum. Qed.
Print Assumptions C26_sum_of_contributions.

(** ... and the link prediction of the price model computed from them. *)
Theorem C26_price_link_prediction : forall cats n l d d' f pe e b, frame_rows n d ->
  (forall x, In x l -> List.length (b_values x) = n) ->
  bookings cats d l = Some d' -> (forall x c, In x l -> category_of cats (b_group x) c -> ~ reserved c) ->
  d "factors"%string = Some f -> d "prior_exponents"%string = Some pe -> d "exponents"%string = Some e -> d "base"%string = Some b ->
  exists link, predict_link_price d' = Some link /\ List.length link = n /\
  forall j, (j < n)%nat -> nth j link 0 =
    nth j f 0 + booked_sum (fun x => negb (b_ext x)) l j + nth j pe 0 * exp (nth j e 0 + booked_sum b_ext l j) * nth j b 0.
Proof. exact price_link. Qed.
Print Assumptions C26_price_link_prediction.

(** Including and then removing a contribution. *)
Theorem C26_include_then_remove : forall cats n d b d', frame_rows n d -> List.length (b_values b) = n ->
  (forall c, category_of cats (b_group b) c -> ~ reserved c) -> b_remove b = false ->
  bookings cats d [b; {| b_remove := true; b_values := b_values b; b_group := b_group b; b_ext := b_ext b |}] = Some d' ->
  (forall c, reserved c -> d' c = d c) /\ predict_link_factors d' = predict_link_factors d /\
  predict_link_price d' = predict_link_price d /\
  (forall c j, ~ reserved c -> entry d' c j = entry d c j).
Proof. exact include_remove. Qed.
Print Assumptions C26_include_then_remove.

(** The column of a category: what was booked for its groups. Missing: removals
    of a category without a column, refuted below. *)
Theorem C26_category_column_partial : forall cats n c sel, ~ reserved c -> forall l d d', frame_rows n d ->
  (forall b, In b l -> List.length (b_values b) = n) ->
  bookings cats d l = Some d' -> (forall b k, In b l -> category_of cats (b_group b) k -> ~ reserved k) ->
  (forall b, In b l -> (sel b = true <-> b_ext b = false /\ category_of cats (b_group b) c)) ->
  (forall l1 b l2, l = l1 ++ b :: l2 -> sel b = true -> b_remove b = true ->
     d c <> None \/ exists b', In b' l1 /\ sel b' = true) ->
  forall j, entry d' c j = entry d c j + booked_sum sel l j.
Proof. exact bookings_category. Qed.
Print Assumptions C26_category_column_partial.

(** After inclusions the category columns add up to the change of the prediction. *)
Theorem C26_categories_sum_up : forall cats n cs l d d', frame_rows n d ->
  (forall b, In b l -> List.length (b_values b) = n) ->
  bookings cats d l = Some d' -> (forall b k, In b l -> category_of cats (b_group b) k -> ~ reserved k) ->
  cats <> None -> NoDup cs ->
  (forall c, In c cs -> ~ reserved c /\ d c = None) ->
  (forall b c, In b l -> b_ext b = false -> category_of cats (b_group b) c -> In c cs) ->
  (forall b, In b l -> b_remove b = false) ->
  forall j, entry d' "factors" j - entry d "factors" j = sumR (map (fun c => entry d' c j) cs).
Proof. exact category_total. Qed.
Print Assumptions C26_categories_sum_up.

(** A category named like a column of the frame is booked twice. *)
Theorem C26_reserved_category_refuted : exists cats d d' b,
  d = frame_factors [0] /\ b_remove b = false /\ b_ext b = false /\ b_values b = [1] /\
  category_of (Some cats) (b_group b) "factors" /\
  bookings (Some cats) d [b] = Some d' /\ predict_link_factors d' = Some [2].
Proof. exact reserved_refuted. Qed.
Print Assumptions C26_reserved_category_refuted.

(** Removing a contribution of a category without a column books it with the
    wrong sign. *)
Theorem C26_first_removal_refuted : exists cats d d' b,
  d = frame_factors [0] /\ b_remove b = true /\ b_ext b = false /\ b_values b = [1] /\
  category_of (Some cats) (b_group b) "promotion" /\
  bookings (Some cats) d [b] = Some d' /\ entry d' "factors" 0 = -1 /\ entry d' "promotion" 0 = 1.
Proof. exact removal_refuted. Qed.
Print Assumptions C26_first_removal_refuted.

Example c26_example :
  frame_rows 2 (frame_price [3; 3] [1; 1] [0; 0]) /\
  exists d', bookings (Some x_cats) (frame_price [3; 3] [1; 1] [0; 0]) x_bookings = Some d' /\
  entry d' "factors" 1 = 5 + 1/4 /\ entry d' "price" 1 = 2 /\ entry d' "base demand" 1 = 1/4 /\ entry d' "exponents" 0 = 7.
Proof. exact (conj x_rows2 ex_c26). Qed.

(** ** C50 *)
(** The linked prediction of a row is its prior plus the linked contributions
    reported for it. Missing: groups with colliding names, refuted below. Groups
    acting on an external column: PriceContributionProps.v. *)
Theorem C50_contributions_explain_prediction_partial : forall unlink link scale offset ms linked X groups names,
  (forall x, link (unlink x) = x) -> (forall l, linked = Some l -> List.length l = List.length X) ->
  List.length groups = List.length ms -> (forall m, In m ms -> m_ext m = false) ->
  map2 contribution_key groups (map m_ext ms) = map Some names -> NoDup names ->
  exists columns, get_feature_contributions unlink groups ms X = Some (combine names columns) /\
    List.length columns = List.length names /\
    forall j, (j < List.length X)%nat ->
    link (nth j (cb_predict unlink scale offset ms linked X) 0) =
    prior_of scale offset linked j + sumR (map (fun c => link (nth j c 0)) columns).
Proof. exact contributions_explain. Qed.
Print Assumptions C50_contributions_explain_prediction_partial.

(** A group that is both a usual and an external one has two columns. *)
Theorem C50_external_columns_apart : forall g name name',
  contribution_key g false = Some name -> contribution_key g true = Some name' -> name <> name'.
Proof. exact external_apart. Qed.
Print Assumptions C50_external_columns_apart.

Theorem C50_colliding_names_refuted : exists groups ms X d,
  NoDup groups /\ List.length groups = List.length ms /\ List.length X = 1%nat /\
  get_feature_contributions exp groups ms X = Some d /\ List.length d = 1%nat /\
  nth 0 (cb_predict exp 0 0 ms None X) 0 = exp 5 /\ sumR (map (fun kv => ln (nth 0 (snd kv) 0)) d) = 3.
Proof. exact contributions_refuted. Qed.
Print Assumptions C50_colliding_names_refuted.

Example c50_example : get_feature_contributions exp [[CName "a"]; [CName "b"]] [x_model 2; x_model 3] x_rows =
    Some [("a"%string, [exp 2; exp 0]); ("b"%string, [exp 3; exp 0])] /\
  cb_predict exp 1 0 [x_model 2; x_model 3] None x_rows = [exp 6; exp 1].
Proof. exact ex_c50. Qed.
