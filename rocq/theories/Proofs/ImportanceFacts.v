(** Feature importances. *)
From Coq Require Import ZArith List Bool String Reals Lia Lra.
From Verif.Model Require Import Num LexBins Train Predict Importance.
From Verif.Spec Require Import LexSpec TrainSpec PredictSpec ImportanceSpec.
From Verif.Proofs Require Import LexFacts TrainFacts TrainHistory TrainExamples PredictFacts.
Import ListNotations.
Local Open Scope R_scope.

Lemma sumR_app a b : sumR (a ++ b) = sumR a + sumR b.
Proof. induction a as [|x a IH]; cbn; [lra|rewrite IH; lra]. Qed.
Lemma sumR_scale {A} (g : A -> R) c l : sumR (map (fun x => g x / c) l) = sumR (map g l) / c.
Proof. induction l as [|x l IH]; cbn; [unfold Rdiv; lra|rewrite IH; unfold Rdiv; lra]. Qed.
Lemma sumR_plus {A} (g h : A -> R) l : sumR (map (fun x => g x + h x) l) = sumR (map g l) + sumR (map h l).
Proof. induction l as [|x l IH]; cbn; [lra|rewrite IH; lra]. Qed.
Lemma sumR_zero {A} (l : list A) : sumR (map (fun _ => 0) l) = 0.
Proof. induction l as [|x l IH]; cbn; [lra|rewrite IH; lra]. Qed.
Lemma sumR_ext {A} (g h : A -> R) l : (forall x, In x l -> g x = h x) -> sumR (map g l) = sumR (map h l).
Proof. intro H. f_equal. apply map_ext_in. auto. Qed.
Lemma sumR_nonneg {A} (g : A -> R) l : (forall x, In x l -> 0 <= g x) -> 0 <= sumR (map g l).
Proof.
  induction l as [|x l IH]; intro H; cbn; [lra|].
  pose proof (H x (or_introl eq_refl)). pose proof (IH (fun y Hy => H y (or_intror Hy))). lra.
Qed.
Lemma sumR_indicator (g : nat -> R) b n s : (s <= b < s + n)%nat ->
  sumR (map (fun k => (if Nat.eqb k b then 1 else 0) * g k) (seq s n)) = g b.
Proof.
  revert s. induction n as [|n IH]; intros s H; [lia|]. cbn [seq map sumR].
  destruct (Nat.eqb_spec s b) as [->|Hne].
  - rewrite (sumR_ext _ (fun _ => 0)); [rewrite sumR_zero; lra|].
    intros k Hk. apply in_seq in Hk. destruct (Nat.eqb_spec k b); [lia|lra].
  - rewrite IH by lia. lra.
Qed.

Lemma bin_rows_cons b lex k : bin_rows (b :: lex) k = (if Nat.eqb k b then 1 else 0) + bin_rows lex k.
Proof.
  unfold bin_rows. cbn [filter]. destruct (Nat.eqb k b); [|lra]. cbn [List.length]. rewrite S_INR. lra.
Qed.

Lemma bin_rows_sum (g : nat -> R) n lex : (forall b, In b lex -> (b < n)%nat) ->
  sumR (map (fun k => bin_rows lex k * g k) (seq 0 n)) = sumR (map g lex).
Proof.
  induction lex as [|b lex IH]; intro H.
  - cbn [map sumR]. rewrite <- (sumR_zero (seq 0 n)). apply sumR_ext. intros k _. unfold bin_rows. cbn. lra.
  - cbn [map sumR]. rewrite <- IH by (intros; apply H; right; auto).
    rewrite (sumR_ext _ (fun k => (if Nat.eqb k b then 1 else 0) * g k + bin_rows lex k * g k)).
    + rewrite sumR_plus, sumR_indicator; auto. pose proof (H b (or_introl eq_refl)). lia.
    + intros k _. rewrite bin_rows_cons. lra.
Qed.

Lemma sumR_ones {A} (l : list A) : sumR (map (fun _ => 1) l) = INR (List.length l).
Proof. induction l as [|x l IH]; [reflexivity|]. cbn [map sumR]. rewrite IH. cbn [List.length]. rewrite S_INR. lra. Qed.

Lemma map2_seq {A} (f : R -> R -> A) (w : nat -> R) (v : list R) : forall s,
  map2 f (map w (seq s (List.length v))) v = map (fun k => f (w (s + k)%nat) (nth k v 0)) (seq 0 (List.length v)).
Proof.
  induction v as [|x v IH]; intro s; [reflexivity|]. cbn [List.length seq map map2]. rewrite Nat.add_0_r. f_equal.
  rewrite IH. rewrite <- seq_shift, map_map. apply map_ext. intro k. cbn [nth]. do 2 f_equal. lia.
Qed.

(** The bin average weighted with the number of rows is the mean over the rows. *)
Lemma bin_average_mean lex v : (forall b, In b lex -> (b < List.length v)%nat) ->
  bin_weighted_average lex v = mean (map (fun b => Rabs (nth b v 0)) lex).
Proof.
  intro H. unfold bin_weighted_average, mean. rewrite map_length.
  assert (HW : sumR (map (bin_rows lex) (seq 0 (List.length v))) = INR (List.length lex)).
  { rewrite (sumR_ext _ (fun k => bin_rows lex k * 1)) by (intros; lra).
    rewrite (bin_rows_sum (fun _ => 1) _ _ H). apply sumR_ones. }
  rewrite map2_seq, HW. cbn [Nat.add].
  rewrite (sumR_ext _ (fun k => bin_rows lex k * Rabs (nth k v 0) / INR (List.length lex))).
  - rewrite sumR_scale. rewrite (bin_rows_sum (fun k => Rabs (nth k v 0)) _ _ H). reflexivity.
  - intros k _. rewrite Rminus_0_r. reflexivity.
Qed.

Lemma map_nth_seq {A B} (g : A -> B) (d : A) l : map (fun j => g (nth j l d)) (seq 0 (List.length l)) = map g l.
Proof.
  induction l as [|x l IH]; [reflexivity|]. cbn [List.length seq map nth]. f_equal.
  rewrite <- seq_shift, map_map. exact IH.
Qed.

(** ** The dict of the results *)
Lemma dict_set_new {A} (d : list (string * A)) k v : ~ In k (map fst d) -> dict_set d k v = d ++ [(k, v)].
Proof.
  induction d as [|[k' v'] d IH]; intro H; [reflexivity|]. cbn in *.
  destruct (String.eqb_spec k k') as [->|]; [exfalso; auto|]. rewrite IH; auto.
Qed.
Lemma dict_of_distinct {A} (names : list string) : forall (d : list (string * A)) vals, List.length names = List.length vals ->
  NoDup (map fst d ++ names) -> dict_of d (combine (map Some names) vals) = Some (d ++ combine names vals).
Proof.
  induction names as [|n names IH]; intros d [|v vals] L H; try discriminate; cbn; [rewrite app_nil_r; auto|].
  assert (Hn : ~ In n (map fst d)).
  { intro Hi. apply NoDup_remove_2 in H. apply H. apply in_or_app. auto. }
  rewrite dict_set_new by auto. rewrite IH.
  - rewrite <- app_assoc. reflexivity.
  - cbn in L; lia.
  - rewrite map_app, <- app_assoc. exact H.
Qed.

Lemma fst_combine {A B} (a : list A) : forall b : list B, List.length a = List.length b -> map fst (combine a b) = a.
Proof. induction a as [|x a IH]; intros [|y b] H; try discriminate; cbn; auto. f_equal; auto. Qed.
Lemma snd_combine {A B} (a : list A) : forall b : list B, List.length a = List.length b -> map snd (combine a b) = b.
Proof. induction a as [|x a IH]; intros [|y b] H; try discriminate; cbn; auto. f_equal; auto. Qed.

Lemma normalized_length l : List.length (get_normalized_values l) = List.length l.
Proof. unfold get_normalized_values. destruct (rounds_to_zero _); [auto|apply map_length]. Qed.
Lemma sumR_nonneg' l : (forall x, In x l -> 0 <= x) -> 0 <= sumR l.
Proof. intro H. rewrite <- (map_id l). apply sumR_nonneg. auto. Qed.
Lemma normalized_sum l : (forall x, In x l -> 0 <= x) -> 1/2000000 < sumR l ->
  get_normalized_values l = map (fun v => v / sumR l) l /\ sumR (get_normalized_values l) = 1 /\
  forall x, In x (get_normalized_values l) -> 0 <= x.
Proof.
  intros P H. unfold get_normalized_values, rounds_to_zero. rewrite Rabs_pos_eq by lra.
  destruct (Rleb _ _) eqn:E; [apply Rleb_iff in E; lra|]. split; [auto|]. split.
  - rewrite (sumR_scale (fun v => v)), map_id. field. lra.
  - intros x Hx. apply in_map_iff in Hx. destruct Hx as (v & <- & Hv). pose proof (P v Hv).
    unfold Rdiv. apply Rmult_le_pos; [auto|]. left. apply Rinv_0_lt_compat. lra.
Qed.
Lemma normalized_small l : 0 <= sumR l <= 1/2000000 -> get_normalized_values l = l.
Proof.
  intros [H1 H2]. unfold get_normalized_values, rounds_to_zero. rewrite Rabs_pos_eq by lra.
  destruct (Rleb _ _) eqn:E; auto. exfalso. assert (Rleb (sumR l) (5 / 10000000) = true) by (apply Rleb_iff; lra). congruence.
Qed.

Lemma f_lex_bound f b : (1 <= f_dim f)%nat -> (forall r, In r (f_rows f) -> List.length r = f_dim f) ->
  In b (f_lex f) -> (b < S (f_finite f))%nat.
Proof.
  intros Hd Hr Hb. apply (In_nth _ _ 0%nat) in Hb. destruct Hb as (j & Hj & <-). rewrite f_lex_length in Hj.
  destruct (nth_error (f_rows f) j) as [row|] eqn:E; [|apply nth_error_None in E; lia].
  rewrite (f_lex_nth f Hd Hr j row E). destruct (row_finite_semi_positive row) eqn:F; [|lia].
  pose proof (nth_error_In _ _ E) as Hin.
  destruct (f_shape_or_empty f Hd Hr) as [(S1 & S2 & S3)|(E1 & E2 & E3)]; [|rewrite (E3 row Hin) in F; discriminate].
  pose proof (data_rows_valid _ _ _ Hr Hin F) as V. rewrite <- f_nbins_data in V.
  assert (Lr : List.length row = List.length (f_nbins f)) by (rewrite f_nbins_length by auto; auto).
  destruct (valid_floors (f_nbins f) row Lr V) as [V1 V2].
  pose proof (number_range _ _ V2) as Rg.
  assert (Lv : lex_value (f_nbins f) row = number (f_nbins f) (map floor_of row)).
  { unfold lex_value. apply dot_number. rewrite map_length. auto. }
  rewrite Lv. lia.
Qed.

Lemma mean_abs_nonneg f s : 0 <= mean_abs_contribution f s.
Proof.
  unfold mean_abs_contribution, mean. rewrite map_length. unfold Rdiv. apply Rmult_le_pos.
  - apply sumR_nonneg. intros. apply Rabs_pos.
  - destruct (f_rows f) as [|r l]; [cbn; rewrite Rinv_0; lra|]. left. apply Rinv_0_lt_compat. apply lt_0_INR.
    rewrite seq_length. cbn. lia.
Qed.

Lemma average_is_mean f s a : (1 <= f_dim f)%nat -> (forall r, In r (f_rows f) -> List.length r = f_dim f) ->
  s_agg s = Some a -> List.length a = S (f_finite f) ->
  bin_weighted_average (f_lex f) a = mean_abs_contribution f s.
Proof.
  intros Hd Hr Ha La. rewrite bin_average_mean.
  - unfold mean_abs_contribution, contribution, learned. rewrite Ha. rewrite <- f_lex_length.
    rewrite (map_nth_seq (fun b => Rabs (nth b a 0)) 0%nat). reflexivity.
  - intros b Hb. rewrite La. apply f_lex_bound; auto.
Qed.

Section Fitted.
Variable cfg : settings.
Variable features : list feature.
Variable calc : nat -> nat -> preds -> list R.
Variable smooth : nat -> nat -> preds -> list R -> nat -> option R.
Variable calib : nat -> list R -> list R.
Variable rate : nat -> nat -> R.
Variable loss : preds -> R.
Variable prior : preds.
Variable N : nat.
Hypothesis Hw : well_shaped N features prior.
Hypothesis Ho : one_per_bin features calc calib.
Hypothesis Hd : forall f, In f features -> (1 <= f_dim f)%nat.
Variable fuel : nat.
Variable st : state.
Hypothesis Hf : fit_main cfg features calc smooth calib rate loss fuel prior = Some (Ok st).

Lemma importances_entries (groups : list (list Importance.column)) : List.length groups = List.length features ->
  forall old, set_feature_importances groups features (t_feats st) old =
              old ++ combine groups (mean_abs_contributions features st).
Proof.
  intros Lg old. unfold set_feature_importances. f_equal.
  destruct (fit_reached cfg features calc smooth calib rate loss prior fuel st Hf) as (Re & _ & _).
  pose proof (all_trained cfg features calc smooth calib rate loss prior fuel st Hf) as A.
  pose proof (reached_inv cfg features calc smooth calib rate loss prior N Hw Ho st Re) as [V1 _].
  destruct Hw as (_ & _ & W3).
  assert (G : forall fl sl gs, incl fl features -> Forall2 shaped fl sl -> Forall has_agg sl -> List.length gs = List.length fl ->
    (map2 (fun (g : list Importance.column) (fs : feature * fstate) => (g, bin_weighted_average (f_lex (fst fs)) (match s_agg (snd fs) with Some a => a | None => [] end)))
      gs (combine fl sl)) = combine gs (map2 mean_abs_contribution fl sl)).
  { induction fl as [|f fl IH]; intros sl gs Hi H2 Ha Hl; inversion H2 as [|? s ? sl' S1 S2]; subst; destruct gs as [|g gs]; try discriminate; auto.
    cbn [combine map2 fst snd]. inversion Ha as [|? ? A1 A2]; subst. f_equal.
    - f_equal. destruct (s_agg s) as [a|] eqn:Ea; [|exfalso; apply A1; auto].
      destruct (W3 f (Hi f (or_introl eq_refl))) as [_ Q]. destruct S1 as (_ & _ & S1 & _).
      apply average_is_mean; auto. apply Hd. apply Hi. left; auto.
    - apply IH; auto. intros x Hx; apply Hi; right; auto. }
  unfold mean_abs_contributions. apply G; auto. apply incl_refl.
Qed.

Lemma entries_length : List.length (mean_abs_contributions features st) = List.length features.
Proof.
  unfold mean_abs_contributions. apply map2_length.
  destruct (fit_reached cfg features calc smooth calib rate loss prior fuel st Hf) as (Re & _ & _).
  symmetry. exact (reached_length cfg features calc smooth calib rate loss prior st Re).
Qed.

Lemma entries_nonneg x : In x (mean_abs_contributions features st) -> 0 <= x.
Proof.
  unfold mean_abs_contributions. generalize (t_feats st). generalize features. intro fl.
  induction fl as [|f fl IH]; intros [|s sl] H; cbn in H; try contradiction.
  destruct H as [<-|H]; [apply mean_abs_nonneg|eapply IH; eauto].
Qed.

Lemma importances_one_fit groups names : List.length groups = List.length features -> features <> [] ->
  map (joined "_") groups = map Some names -> NoDup names ->
  exists values, get_feature_importances (set_feature_importances groups features (t_feats st) []) = Importances (combine names values) /\ List.length values = List.length names /\ (forall x, In x values -> 0 <= x) /\ (1/2000000 < sumR (mean_abs_contributions features st) ->
      values = map (fun v => v / sumR (mean_abs_contributions features st)) (mean_abs_contributions features st) /\ sumR values = 1) /\ (sumR (mean_abs_contributions features st) <= 1/2000000 -> values = mean_abs_contributions features st).
Proof.
  intros Lg Hne Hn Hnd. rewrite importances_entries by auto. cbn [app].
  pose proof entries_length as Le. set (raw := mean_abs_contributions features st) in *.
  assert (Ln : List.length names = List.length groups).
  { rewrite <- (map_length Some names), <- Hn, map_length. reflexivity. }
  exists (get_normalized_values raw).
  assert (E : get_feature_importances (combine groups raw) = Importances (combine names (get_normalized_values raw))).
  { unfold get_feature_importances. destruct (combine groups raw) as [|e l] eqn:Ec.
    - exfalso. destruct groups as [|g gs]; [destruct features; [auto|discriminate]|]. destruct raw; [destruct features; [auto|cbn in *; lia]|discriminate].
    - rewrite <- Ec.
      rewrite <- (map_map fst (joined "_")). rewrite fst_combine, snd_combine by lia. rewrite Hn.
      rewrite dict_of_distinct; [reflexivity|rewrite normalized_length; lia|exact Hnd]. }
  split; [exact E|]. split; [rewrite normalized_length; lia|].
  assert (P : 0 <= sumR raw) by (apply sumR_nonneg'; intros x Hx; apply entries_nonneg; auto).
  destruct (Rlt_le_dec (1/2000000) (sumR raw)) as [Hs|Hs].
  - destruct (normalized_sum raw entries_nonneg Hs) as (N1 & N2 & N3).
    split; [auto|]. split; [auto|]. intro. lra.
  - rewrite normalized_small by lra. split; [apply entries_nonneg|]. split; [intro; lra|auto].
Qed.
End Fitted.
