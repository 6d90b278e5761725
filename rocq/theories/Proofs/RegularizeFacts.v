(** Regularisation to a mean or a prior. *)
From Coq Require Import List Bool Reals Lia Lra.
From Verif.Model Require Import Train Regularize.
From Verif.Spec Require Import RegularizeSpec.
From Verif.Proofs Require Import TrainFacts TrainExamples LinkFacts ImportanceFacts TotalFacts.
Import ListNotations.
Local Open Scope R_scope.

Lemma allclose_iff x b : allclose x b = true <-> nearly_all x b.
Proof.
  unfold allclose, nearly_all, isclose. rewrite forallb_forall. split; intros H v I.
  - apply Rleb_iff. exact (H v I).
  - apply Rleb_iff. exact (H v I).
Qed.
Lemma isclose_refl a : isclose a a = true.
Proof. unfold isclose. apply Rleb_iff. replace (a - a) with 0 by ring. rewrite Rabs_R0. pose proof (Rabs_pos a). lra. Qed.
Lemma not_close_exists x b : allclose x b = false -> exists i, (i < length x)%nat /\ nth i x 0 <> b.
Proof.
  unfold allclose. induction x as [|v x IH]; cbn [forallb]; intros H; [discriminate|].
  apply andb_false_iff in H. destruct H as [H|H].
  - exists 0%nat. split; [cbn; lia|]. cbn [nth]. intros ->. rewrite isclose_refl in H. discriminate.
  - destruct (IH H) as (i & I & E). exists (S i). split; [cbn; lia|exact E].
Qed.

Definition shrunk (V : R) (x u : list R) (m : R) (r : list R) : Prop :=
  forall i, (i < length x)%nat ->
    nth i r 0 = nth i x 0 + nth i u 0 ^ 2 / (nth i u 0 ^ 2 + V) * (m - nth i x 0).
Definition mean_variance (x u : list R) (m : R) : R :=
  total (length x) (fun i => (nth i x 0 - m) ^ 2 / nth i u 0 ^ 2) / total (length x) (fun i => 1 / nth i u 0 ^ 2).

Lemma no_zero u : (forall v, In v u -> 0 < v) -> existsb (fun v => Reqb v 0) u = false.
Proof.
  induction u as [|a u IH]; intros P; [reflexivity|]. cbn. rewrite IH by (intros; apply P; right; auto).
  rewrite orb_false_r. apply Reqb_false_iff. pose proof (P a (or_introl eq_refl)). lra.
Qed.
Lemma some_zero u : In 0 u -> existsb (fun v => Reqb v 0) u = true.
Proof. intros I. apply existsb_exists. exists 0. split; [exact I|]. apply Reqb_iff. reflexivity. Qed.

Lemma variance_pos x u m : length x = length u -> (forall v, In v u -> 0 < v) ->
  (exists i, (i < length x)%nat /\ nth i x 0 <> m) -> 0 < mean_variance x u m.
Proof.
  intros L P (i & I & N).
  assert (U : forall j, (j < length x)%nat -> 0 < nth j u 0) by (intros j J; apply P, nth_In; lia).
  unfold mean_variance. apply Rdiv_lt_0_compat.
  - apply (total_pos _ _ i); [|exact I|].
    + intros j J. pose proof (U j J). apply div_nonneg; [apply pow2_ge_0 || lra|apply square_pos; lra].
    + pose proof (U i I). apply Rdiv_lt_0_compat; [lra || (apply square_pos; lra)|apply square_pos; lra].
  - apply (total_pos _ _ i); [|exact I|].
    + intros j J. pose proof (U j J). apply div_nonneg; [apply pow2_ge_0 || lra|apply square_pos; lra].
    + pose proof (U i I). apply Rdiv_lt_0_compat; [lra || (apply square_pos; lra)|apply square_pos; lra].
Qed.

Lemma shrink_core x u m : length x = length u -> (forall v, In v u -> 0 < v) ->
  (exists i, (i < length x)%nat /\ nth i x 0 <> m) ->
  let wx := map (fun s => 1 / (s * s)) u in
  let wx_incl := 1 / (sumR (map2 (fun w v => w * (v - m) ^ 2) wx x) / sumR wx) in
  let r := map2 (fun w v => (w * v + wx_incl * m) / (w + wx_incl)) wx x in
  length r = length x /\ shrunk (mean_variance x u m) x u m r.
Proof.
  intros L P N wx wx_incl r. pose proof (variance_pos x u m L P N) as V.
  assert (U : forall j, (j < length x)%nat -> 0 < nth j u 0) by (intros j J; apply P, nth_In; lia).
  assert (Lw : length wx = length x) by (unfold wx; rewrite map_length; lia).
  assert (W : forall j, (j < length x)%nat -> nth j wx 0 = 1 / nth j u 0 ^ 2).
  { intros j J. unfold wx. rewrite (nth_map_lt _ _ j 0) by lia. replace (nth j u 0 ^ 2) with (nth j u 0 * nth j u 0) by ring. reflexivity. }
  assert (I : wx_incl = 1 / mean_variance x u m).
  { unfold wx_incl, mean_variance. do 2 f_equal.
    - rewrite (map2_total _ _ _ 0 0) by exact Lw. rewrite Lw. apply total_ext. intros j J. rewrite W by exact J.
      pose proof (U j J). field. lra.
    - f_equal. rewrite sumR_total, Lw. apply total_ext. exact W. }
  split; [unfold r; rewrite map2_length_eq; auto|].
  intros i J. unfold r. rewrite (nth_map2_lt _ _ _ _ 0 0) by lia. rewrite W, I by exact J.
  pose proof (U i J). set (V' := mean_variance x u m) in *. set (t := nth i u 0) in *. field. repeat split; nra.
Qed.

Lemma shrink_between V x u m r i : 0 < V -> shrunk V x u m r -> (i < length x)%nat ->
  between (nth i x 0) m (nth i r 0).
Proof.
  intros P S I. apply (between_mix _ _ _ (nth i u 0 ^ 2 / (nth i u 0 ^ 2 + V))); [|apply S; exact I].
  set (t := nth i u 0). assert (0 <= t ^ 2) by nra. split.
  - apply div_nonneg; lra.
  - apply (Rmult_le_reg_r (t ^ 2 + V)); [lra|]. unfold Rdiv. rewrite Rmult_assoc, Rinv_l by lra. lra.
Qed.
Lemma shrink_order V x u m r i j : 0 < V -> shrunk V x u m r -> (i < length x)%nat -> (j < length x)%nat ->
  nth i u 0 = nth j u 0 -> nth i x 0 < nth j x 0 -> nth i r 0 < nth j r 0.
Proof.
  intros P S I J E L. rewrite (S i I), (S j J), E. set (t := nth j u 0). assert (0 <= t ^ 2) by nra.
  assert (K : 0 <= t ^ 2 / (t ^ 2 + V) < 1).
  { split; [apply div_nonneg; lra|].
    apply (Rmult_lt_reg_r (t ^ 2 + V)); [lra|]. unfold Rdiv. rewrite Rmult_assoc, Rinv_l by lra. lra. }
  set (k := t ^ 2 / (t ^ 2 + V)) in *. nra.
Qed.

Lemma mean_target x u : length x = length u ->
  let wx := map (fun s => 1 / (s * s)) u in sumR (map2 Rmult wx x) / sumR wx = inverse_variance_mean x u.
Proof.
  intros L wx. assert (Lw : length wx = length x) by (unfold wx; rewrite map_length; lia).
  assert (W : forall j, (j < length x)%nat -> nth j wx 0 = 1 / nth j u 0 ^ 2).
  { intros j J. unfold wx. rewrite (nth_map_lt _ _ j 0) by lia. replace (nth j u 0 ^ 2) with (nth j u 0 * nth j u 0) by ring. reflexivity. }
  unfold inverse_variance_mean. f_equal; [|f_equal].
  - rewrite (map2_total _ _ _ 0 0) by exact Lw. rewrite Lw. apply total_ext. intros j J. rewrite W by exact J. unfold Rdiv. ring.
  - rewrite sumR_total, Lw. apply total_ext. exact W.
Qed.
Lemma map_some_map2 {A B} (f : A -> B -> R) a : forall b, map2 (fun w x => Some (f w x)) a b = map Some (map2 f a b).
Proof. induction a as [|x a IH]; intros [|y b]; cbn; auto. f_equal. apply IH. Qed.

(** Inputs that are returned unchanged. *)
Definition unchanged_input (x : list R) (prior : option R) : Prop :=
  match prior with
  | None => (length x <= 1)%nat \/ nearly_all x (nth 0 x 0)
  | Some p => nearly_all x p
  end.

Lemma unchanged_same x u prior : length x = length u -> unchanged_input x prior ->
  regularize_to_error_weighted_mean x u prior = Some (map Some x).
Proof.
  intros L H. unfold regularize_to_error_weighted_mean. rewrite (proj2 (Nat.eqb_eq _ _) L). cbn [negb].
  destruct prior as [p|]; cbn [unchanged_input] in H.
  - apply allclose_iff in H. destruct x; [reflexivity|]. rewrite H. reflexivity.
  - destruct x as [|a [|b x]]; [reflexivity|reflexivity|].
    destruct H as [H|H]; [cbn in H; lia|]. apply allclose_iff in H. cbn [nth] in H. rewrite H. reflexivity.
Qed.

Lemma changed_shrunk x u prior : length x = length u -> (forall v, In v u -> 0 < v) -> ~ unchanged_input x prior ->
  let m := shrinkage_target x u prior in
  exists r, regularize_to_error_weighted_mean x u prior = Some (map Some r) /\ length r = length x /\
    0 < mean_variance x u m /\ shrunk (mean_variance x u m) x u m r.
Proof.
  intros L P H m. unfold regularize_to_error_weighted_mean. rewrite (proj2 (Nat.eqb_eq _ _) L), no_zero by exact P. cbn [negb].
  destruct prior as [p|]; cbn [unchanged_input] in H.
  - assert (A : allclose x p = false).
    { apply not_true_is_false. intros K. apply H, allclose_iff, K. }
    pose proof (not_close_exists _ _ A) as N.
    destruct x as [|a x]; [discriminate|]. rewrite A.
    destruct (shrink_core (a :: x) u p L P N) as (Lr & S). rewrite map_some_map2. eexists. split; [reflexivity|].
    split; [exact Lr|]. split; [apply variance_pos; auto|exact S].
  - destruct x as [|a [|b x]]; [exfalso; apply H; left; cbn; lia|exfalso; apply H; left; cbn; lia|].
    assert (A : allclose (a :: b :: x) a = false).
    { apply not_true_is_false. intros K. apply H. right. apply allclose_iff. exact K. }
    rewrite A. rewrite map_some_map2.
    pose proof (mean_target (a :: b :: x) u L) as T. cbn zeta in T. rewrite T. clear T. fold m.
    assert (N : exists i, (i < length (a :: b :: x))%nat /\ nth i (a :: b :: x) 0 <> m).
    { destruct (not_close_exists _ _ A) as (i & I & N). destruct (Req_EM_T (nth i (a :: b :: x) 0) m) as [E|E].
      - exists 0%nat. split; [cbn; lia|]. cbn [nth]. intros E'. apply N. cbn zeta in m. rewrite E. symmetry. exact E'.
      - exists i. auto. }
    destruct (shrink_core (a :: b :: x) u m L P N) as (Lr & S). eexists. split; [reflexivity|].
    split; [exact Lr|]. split; [apply variance_pos; auto|exact S].
Qed.

Lemma nearly_all_dec x b : nearly_all x b \/ ~ nearly_all x b.
Proof. destruct (allclose x b) eqn:E; [left; apply allclose_iff, E|right; intros K; apply allclose_iff in K; congruence]. Qed.
Lemma unchanged_dec x prior : unchanged_input x prior \/ ~ unchanged_input x prior.
Proof.
  destruct prior as [p|]; cbn [unchanged_input]; [apply nearly_all_dec|].
  destruct (Nat.le_gt_cases (length x) 1); [left; left; auto|].
  destruct (nearly_all_dec x (nth 0 x 0)); [left; right; auto|right]. intros [K|K]; [lia|auto].
Qed.

(** ** C34 *)
Lemma mean_shrinkage x u prior : length x = length u -> (forall v, In v u -> 0 < v) ->
  exists r, regularize_to_error_weighted_mean x u prior = Some (map Some r) /\ length r = length x /\
    (forall i, (i < length x)%nat -> between (nth i x 0) (shrinkage_target x u prior) (nth i r 0)) /\
    (forall i j, (i < length x)%nat -> (j < length x)%nat -> nth i u 0 = nth j u 0 ->
       nth i x 0 < nth j x 0 -> nth i r 0 < nth j r 0).
Proof.
  intros L P. destruct (unchanged_dec x prior) as [H|H].
  - exists x. split; [apply unchanged_same; auto|]. split; [reflexivity|]. split; [intros; apply between_left|auto].
  - destruct (changed_shrunk x u prior L P H) as (r & E & Lr & V & S). exists r. split; [exact E|]. split; [exact Lr|].
    split; [intros i I; apply (shrink_between _ _ _ _ _ _ V S I)|].
    intros i j I J. apply (shrink_order _ _ _ _ _ _ _ V S I J).
Qed.
Lemma mean_amount x u prior : length x = length u -> (forall v, In v u -> 0 < v) ->
  match prior with None => (2 <= length x)%nat /\ ~ nearly_all x (nth 0 x 0) | Some p => ~ nearly_all x p end ->
  let m := shrinkage_target x u prior in
  exists V r, V * total (length x) (fun i => 1 / nth i u 0 ^ 2) = total (length x) (fun i => (nth i x 0 - m) ^ 2 / nth i u 0 ^ 2) /\
    0 < V /\ regularize_to_error_weighted_mean x u prior = Some (map Some r) /\ length r = length x /\
    forall i, (i < length x)%nat -> nth i r 0 - m = V / (nth i u 0 ^ 2 + V) * (nth i x 0 - m).
Proof.
  intros L P H m. assert (H' : ~ unchanged_input x prior).
  { destruct prior; cbn [unchanged_input]; [exact H|]. intros [K|K]; [lia|tauto]. }
  destruct (changed_shrunk x u prior L P H') as (r & E & Lr & V & S). fold m in V, S.
  assert (U : forall j, (j < length x)%nat -> 0 < nth j u 0) by (intros j J; apply P, nth_In; lia).
  exists (mean_variance x u m), r. split; [|split; [exact V|split; [exact E|split; [exact Lr|]]]].
  - unfold mean_variance, Rdiv at 1. rewrite Rmult_assoc, Rinv_l; [apply Rmult_1_r|].
    apply Rgt_not_eq. apply total_all_pos.
    + destruct x; [|cbn; lia]. exfalso. destruct prior; [apply H; intros ? []|cbn in H; lia].
    + intros i I. pose proof (U i I). apply Rdiv_lt_0_compat; [lra || (apply square_pos; lra)|apply square_pos; lra].
  - intros i I. rewrite (S i I). pose proof (U i I). set (W := mean_variance x u m) in *. set (t := nth i u 0) in *. field. nra.
Qed.
Lemma mean_unchanged x u prior : length x = length u ->
  match prior with None => (length x <= 1)%nat \/ nearly_all x (nth 0 x 0) | Some p => nearly_all x p end ->
  regularize_to_error_weighted_mean x u prior = Some (map Some x).
Proof. apply unchanged_same. Qed.
Lemma mean_lengths x u prior : regularize_to_error_weighted_mean x u prior = None <-> length x <> length u.
Proof.
  unfold regularize_to_error_weighted_mean. destruct (Nat.eqb_spec (length x) (length u)) as [E|E]; cbn [negb].
  - split; [|congruence]. intros H. exfalso. destruct prior; destruct x as [|a [|b x]]; try discriminate;
    repeat match type of H with context [if ?c then _ else _] => destruct c end; discriminate.
  - tauto.
Qed.
Lemma mean_zero_uncertainty x u prior : length x = length u -> In 0 u ->
  match prior with None => (2 <= length x)%nat /\ ~ nearly_all x (nth 0 x 0) | Some p => ~ nearly_all x p end ->
  regularize_to_error_weighted_mean x u prior = Some (map (fun _ => None) x).
Proof.
  intros L Z H. unfold regularize_to_error_weighted_mean. rewrite (proj2 (Nat.eqb_eq _ _) L), some_zero by exact Z. cbn [negb].
  destruct prior as [p|].
  - destruct x as [|a x]; [exfalso; apply H; intros ? []|].
    destruct (allclose (a :: x) p) eqn:A; [|reflexivity]. exfalso. apply H. apply allclose_iff, A.
  - destruct x as [|a [|b x]]; [cbn in H; lia|cbn in H; lia|]. destruct H as (_ & H). cbn [nth] in H.
    destruct (allclose (a :: b :: x) a) eqn:A; [|reflexivity]. exfalso. apply H. apply allclose_iff, A.
Qed.

(** ** C35 *)
Lemma prior_insignificant v u p t : 0 < u -> Rabs (v - p) <= t * u -> regularize_to_prior_expectation v u p t = Some p.
Proof.
  intros U H. unfold regularize_to_prior_expectation.
  assert (Z : Reqb u 0 = false) by (apply Reqb_false_iff; lra). rewrite Z.
  assert (S : Rltb t (Rabs ((v - p) / u)) = false).
  { apply Rltb_false. unfold Rdiv. rewrite Rabs_mult, (Rabs_right (/ u)) by (apply Rle_ge; left; apply Rinv_0_lt_compat; lra).
    apply (Rmult_le_reg_r u); [lra|]. rewrite Rmult_assoc, Rinv_l by lra. lra. }
  rewrite S. f_equal. ring.
Qed.
Lemma prior_value v u p t : 0 < u -> 0 <= t -> t * u < Rabs (v - p) ->
  regularize_to_prior_expectation v u p t =
  Some (p + (if Rltb p v then 1 else -1) * sqrt ((v - p) ^ 2 - (t * u) ^ 2)).
Proof.
  intros U T H. unfold regularize_to_prior_expectation.
  assert (Z : Reqb u 0 = false) by (apply Reqb_false_iff; lra). rewrite Z.
  set (s := (v - p) / u).
  assert (D : v - p = s * u) by (unfold s; field; lra).
  assert (A : Rabs (v - p) = Rabs s * u) by (rewrite D, Rabs_mult, (Rabs_right u) by lra; reflexivity).
  assert (S : t < Rabs s) by (rewrite A in H; nra).
  assert (S' : Rltb t (Rabs s) = true) by (apply Rltb_iff; exact S). rewrite S'. f_equal. f_equal.
  assert (Q : t ^ 2 < s ^ 2).
  { rewrite <- (pow2_abs s). pose proof (Rabs_pos s). nra. }
  rewrite (Rabs_right (s ^ 2 - t ^ 2)) by lra.
  replace ((v - p) ^ 2 - (t * u) ^ 2) with (u ^ 2 * (s ^ 2 - t ^ 2)) by (rewrite D; ring).
  rewrite sqrt_mult by nra. rewrite sqrt_pow2 by lra.
  assert (G : np_sign s = if Rltb p v then 1 else -1).
  { unfold np_sign. destruct (Rltb p v) eqn:E.
    - apply Rltb_iff in E. assert (0 < s) by nra. replace (Rltb 0 s) with true by (symmetry; apply Rltb_iff; lra). reflexivity.
    - apply Rltb_false in E. assert (s <> 0) by (intros K; rewrite K, Rabs_R0 in S; lra). assert (s < 0) by nra.
      replace (Rltb 0 s) with false by (symmetry; apply Rltb_false; lra).
      replace (Rltb s 0) with true by (symmetry; apply Rltb_iff; lra). reflexivity. }
  rewrite G. ring.
Qed.
Lemma prior_significant v u p t : 0 < u -> 0 <= t -> t * u < Rabs (v - p) ->
  exists r, regularize_to_prior_expectation v u p t = Some r /\
    (r - p) ^ 2 = (v - p) ^ 2 - (t * u) ^ 2 /\
    (p < v -> p < r <= v) /\ (v < p -> v <= r < p) /\ (0 < t -> r <> v).
Proof.
  intros U T H. eexists. split; [apply prior_value; auto|].
  assert (Q : 0 < (v - p) ^ 2 - (t * u) ^ 2).
  { rewrite <- (pow2_abs (v - p)). pose proof (Rabs_pos (v - p)). assert (0 <= t * u) by nra. nra. }
  pose proof (sqrt_lt_R0 _ Q) as Sp. pose proof (pow2_sqrt _ (Rlt_le _ _ Q)) as Sq.
  set (q := sqrt ((v - p) ^ 2 - (t * u) ^ 2)) in *.
  assert (0 <= t * u) by nra.
  split; [|split; [|split]].
  - destruct (Rltb p v); ring_simplify; lra.
  - intros L. replace (Rltb p v) with true by (symmetry; apply Rltb_iff; lra). split; [lra|].
    assert (q ^ 2 <= (v - p) ^ 2) by nra. nra.
  - intros L. replace (Rltb p v) with false by (symmetry; apply Rltb_false; lra). split; [|lra].
    assert (q ^ 2 <= (p - v) ^ 2) by nra. nra.
  - intros L E. assert (0 < t * u) by nra. assert (q ^ 2 = (v - p) ^ 2).
    { rewrite <- E. destruct (Rltb p v); ring. }
    nra.
Qed.
Lemma prior_monotone v v' u p t r r' : 0 < u -> 0 <= t -> v <= v' ->
  regularize_to_prior_expectation v u p t = Some r -> regularize_to_prior_expectation v' u p t = Some r' -> r <= r'.
Proof.
  intros U T L E E'.
  assert (TU : 0 <= t * u) by nra.
  destruct (Rle_lt_dec (Rabs (v - p)) (t * u)) as [H|H]; destruct (Rle_lt_dec (Rabs (v' - p)) (t * u)) as [H'|H'].
  - rewrite prior_insignificant in E, E' by auto. injection E as <-. injection E' as <-. lra.
  - rewrite prior_insignificant in E by auto. injection E as <-.
    destruct (prior_significant v' u p t U T H') as (q & Eq & _ & A & B & _). rewrite Eq in E'. injection E' as <-.
    destruct (Rlt_le_dec p v') as [K|K]; [destruct (A K); lra|]. exfalso.
    assert (v' < p) by (destruct K; [lra|subst; rewrite Rminus_diag_eq, Rabs_R0 in H' by lra; lra]).
    rewrite Rabs_left in H' by lra. rewrite Rabs_left in H by lra. lra.
  - rewrite prior_insignificant in E' by auto. injection E' as <-.
    destruct (prior_significant v u p t U T H) as (q & Eq & _ & A & B & _). rewrite Eq in E. injection E as <-.
    destruct (Rlt_le_dec v p) as [K|K]; [destruct (B K); lra|]. exfalso.
    rewrite Rabs_right in H by lra. rewrite Rabs_right in H' by lra. lra.
  - destruct (prior_significant v u p t U T H) as (q & Eq & S & A & B & _). rewrite Eq in E. injection E as <-.
    destruct (prior_significant v' u p t U T H') as (q' & Eq' & S' & A' & B' & _). rewrite Eq' in E'. injection E' as <-.
    assert (N : v <> p) by (intros ->; rewrite Rminus_diag_eq, Rabs_R0 in H by lra; lra).
    assert (N' : v' <> p) by (intros ->; rewrite Rminus_diag_eq, Rabs_R0 in H' by lra; lra).
    destruct (Rlt_le_dec v p) as [K|K].
    + destruct (B K). destruct (Rlt_le_dec v' p) as [K'|K'].
      * destruct (B' K'). assert ((v' - p) ^ 2 <= (v - p) ^ 2) by nra. nra.
      * destruct A'; lra.
    + destruct A; [lra|]. destruct A'; [lra|]. assert ((v - p) ^ 2 <= (v' - p) ^ 2) by nra. nra.
Qed.
