(** Facts about the plot of a feature group of two columns. *)
From Coq Require Import ZArith List Bool Reals Lra Lia.
From Verif.Model Require Import Num Train Estimators PlotAxis Plot2D.
From Verif.Spec Require Import LexSpec TableSpec AxisSpec Plot2DSpec.
From Verif.Proofs Require Import TrainFacts LinkFacts ImportanceFacts TableFacts AxisFacts.
Import ListNotations.
Local Open Scope R_scope.

(** * Tables *)
Definition table {A} (n m : nat) (g : nat -> nat -> A) : list (list A) := map (fun i => map (g i) (seq 0 m)) (seq 0 n).

Lemma slice (l : list R) : forall m k, (k + m <= length l)%nat -> firstn m (skipn k l) = map (fun j => nth (k + j) l 0) (seq 0 m).
Proof.
  intros m k H. apply (nth_ext _ _ 0 0).
  - rewrite firstn_length, skipn_length, map_length, seq_length. lia.
  - intros j J. rewrite firstn_length, skipn_length in J.
    set (h := fun j => nth (k + j) l 0). rewrite (nth_indep (map h (seq 0 m)) 0 (h 0%nat)) by (rewrite map_length, seq_length; lia).
    rewrite map_nth, seq_nth by lia. unfold h. cbn [Nat.add].
    rewrite <- (firstn_skipn k l) at 2. rewrite app_nth2; rewrite firstn_length; [|lia].
    replace (k + j - Nat.min k (length l))%nat with j by lia.
    rewrite <- (firstn_skipn m (skipn k l)) at 2. rewrite app_nth1 by (rewrite firstn_length, skipn_length; lia). reflexivity.
Qed.

Lemma reshaped_table n m l : recorded_for n m l -> reshaped n m l = Some (table n m (at_bins n m l)).
Proof.
  intro L. unfold recorded_for in L. unfold reshaped. rewrite length_removelast, L.
  replace (S (n * m) - 1)%nat with (n * m)%nat by lia. rewrite Nat.eqb_refl. f_equal. unfold table. apply map_ext_in. intros i I.
  apply in_seq in I. rewrite slice by (rewrite length_removelast, L; nia). apply map_ext_in. intros j J. apply in_seq in J.
  rewrite at_bins_nth. apply nth_removelast. rewrite L. nia.
Qed.

Lemma nth_seq {A} (g : nat -> A) n k d : (k < n)%nat -> nth k (map g (seq 0 n)) d = g k.
Proof. intro K. rewrite (nth_indep _ d (g 0%nat)) by (rewrite map_length, seq_length; lia). now rewrite map_nth, seq_nth. Qed.

Lemma transposed_table n m g : transposed m (table n m g) = table m n (fun j i => g i j).
Proof.
  unfold transposed, table. apply map_ext_in. intros j J. apply in_seq in J. rewrite map_map. apply map_ext. intro i.
  apply nth_seq. lia.
Qed.

Lemma pixel_table n m g b i j : (i < n)%nat -> (j < m)%nat -> pixel (imshow_factors m (table n m g) b) i j = g i j.
Proof.
  intros I J. unfold pixel, imshow_factors. cbn [i_lines]. rewrite transposed_table. unfold table.
  rewrite nth_seq by exact J. now apply (nth_seq (fun i => g i j)).
Qed.

Lemma in_table n m (g : nat -> nat -> R) v : In v (concat (table n m g)) <-> exists i j, (i < n)%nat /\ (j < m)%nat /\ v = g i j.
Proof.
  rewrite in_concat. unfold table. split.
  - intros (r & R1 & V). apply in_map_iff in R1 as (i & <- & I). apply in_map_iff in V as (j & <- & J). apply in_seq in I, J.
    exists i, j. split; [lia|]. split; [lia|reflexivity].
  - intros (i & j & I & J & ->). exists (map (g i) (seq 0 m)). split.
    + apply (in_map (fun i => map (g i) (seq 0 m))). apply in_seq. lia.
    + apply in_map. apply in_seq. lia.
Qed.

Lemma map2_maps {A B C D} (f : B -> C -> D) (g : A -> B) (h : A -> C) l : map2 f (map g l) (map h l) = map (fun x => f (g x) (h x)) l.
Proof. induction l as [|x l IH]; [reflexivity|]. cbn [map map2]. now rewrite IH. Qed.

(** The marginal value of line [i]. *)
Definition line (m : nat) (w x : nat -> nat -> R) (i : nat) : R :=
  ln (sumR (map (fun j => w i j * exp (x i j)) (seq 0 m)) / sumR (map (w i) (seq 0 m))).
Lemma marginal_table n m w x : map2 marginal_value (table n m w) (table n m x) = map (line m w x) (seq 0 n).
Proof.
  unfold table. rewrite map2_maps. apply map_ext. intro i. unfold marginal_value, line.
  rewrite map_map, map2_maps. reflexivity.
Qed.

(** * Axis *)
Lemma axis_covers fuel l r a v : get_y_axis fuel (minimum l :: maximum l :: r) None = Some a -> In v l -> on_axis a v.
Proof.
  unfold get_y_axis. destruct (minmax_none (minimum l) (maximum l) r) as (A & B).
  set (q := y_limits (minimum l :: maximum l :: r) None) in *. clearbody q.
  destruct (number_of_ticks _ _) as [k|]; [|discriminate]. intros H V. injection H as <-.
  unfold on_axis. cbn [a_low a_high].
  pose proof (floor_below (fst q)) as F. pose proof (ceil_above (snd q)) as C.
  pose proof (minimum_le l v V). pose proof (maximum_ge l v V). split; lra.
Qed.

Lemma marginal_covers fuel w s d yp g : plot_marginal fuel w s d yp = Some g ->
  g_smoothed g = map2 marginal_value w s /\ forall v, In v (curves g) -> on_axis (g_axis g) v.
Proof.
  unfold plot_marginal. cbv zeta. set (others := match yp with Some (y, p) => _ | None => _ end).
  destruct (get_y_axis _ _ _) as [a|] eqn:E; [|discriminate]. intro H. inversion H; subst g. clear H.
  split; [reflexivity|]. unfold curves. cbn [g_smoothed g_others g_background g_axis]. intros v V.
  apply (axis_covers _ _ _ _ v E). clear E. rewrite !in_app_iff. rewrite !in_app_iff in V.
  destruct V as [V|[V|V]]; [left; exact V| |right; right; right; exact V]. subst others. destruct yp as [[y p]|].
  - right. right. left. exact V.
  - cbn [concat] in V. rewrite app_nil_r in V. right. left. exact V.
Qed.

Lemma marginal_found w s d yp : exists g steps, forall fuel, (steps <= fuel)%nat -> plot_marginal fuel w s d yp = Some g.
Proof.
  unfold plot_marginal. set (l := _ ++ _). destruct (axis_found (minimum l :: maximum l :: map2 marginal_value w s) None) as (a & (steps & D) & _).
  eexists. exists steps. intros fuel F. rewrite (D fuel F). reflexivity.
Qed.

(** * The plot *)
Section Plot.
Variables (n m : nat) (unfitted smoothed weights : list R) (yp : option (list R * list R * list R)).
Hypothesis input : plot_input n m unfitted smoothed weights yp.
Notation first := (shown_first unfitted yp).
Notation at_ := (at_bins n m).
Definition refilled : list R := map filled (removelast weights) ++ [last weights 0].

Lemma refilled_for : recorded_for n m refilled.
Proof.
  destruct input as (_ & _ & W & _). unfold recorded_for, refilled in *. rewrite app_length, map_length, length_removelast, W. cbn [length]. lia.
Qed.
Lemma refilled_at i j : (i < n)%nat -> (j < m)%nat -> at_ refilled i j = filled (at_ weights i j).
Proof.
  intros I J. destruct input as (_ & _ & W & _). unfold recorded_for in W. rewrite !at_bins_nth. unfold refilled.
  rewrite app_nth1 by (rewrite map_length, length_removelast, W; nia).
  rewrite (nth_indep _ 0 (filled 0)) by (rewrite map_length, length_removelast, W; nia).
  rewrite map_nth, nth_removelast by (rewrite W; nia). reflexivity.
Qed.

Definition weights_after : list R := if Nat.eqb n 0 then weights else refilled.
Definition tables : option (list (list R) * list (list R)) :=
  match yp with Some (y, p, _) => Some (table n m (at_ y), table n m (at_ p)) | None => None end.
Definition tables' : option (list (list R) * list (list R)) :=
  match yp with Some (y, p, _) => Some (table m n (fun j i => at_ y i j), table m n (fun j i => at_ p i j)) | None => None end.
Definition first_marginal (fuel : nat) : option marginal :=
  plot_marginal fuel (table n m (at_ refilled)) (table n m (at_ smoothed)) (table n m (at_ first)) tables.
Definition second_marginal (fuel : nat) : option marginal :=
  plot_marginal fuel (table m n (fun j i => at_ refilled i j)) (table m n (fun j i => at_ smoothed i j)) (table m n (fun j i => at_ first i j)) tables'.
Definition limit : R := if Nat.eqb (n * m) 0 then 1 else extremal_factor (table n m (at_ smoothed)).
Definition picture (g : option (marginal * marginal)) : plot :=
  {| p_deviations := imshow_factors m (table n m (at_ first)) (last unfitted 0);
     p_smoothed := imshow_factors m (table n m (at_ smoothed)) (last smoothed 0);
     p_limits := (- limit, limit); p_marginals := g; p_weights := weights_after |}.

Lemma plot_form fuel : plot_factor_2d fuel n m unfitted smoothed weights yp =
  if Nat.eqb n 0 then Some (picture None)
  else match first_marginal fuel, second_marginal fuel with
       | Some a, Some b => Some (picture (Some (a, b)))
       | _, _ => None
       end.
Proof.
  pose proof refilled_for as RF. destruct input as (U & S1 & W & Y). unfold plot_factor_2d, picture, weights_after, first_marginal, second_marginal, tables, tables', limit.
  fold refilled. rewrite (reshaped_table n m smoothed S1), (reshaped_table n m refilled RF). destruct yp as [[[y p] d]|] eqn:E.
  - destruct (Y y p d eq_refl) as (Ly & Lp & Ld). cbn [shown_first]. rewrite (reshaped_table n m y Ly), (reshaped_table n m p Lp), (reshaped_table n m d Ld).
    cbn [option_map fst snd]. rewrite !transposed_table. destruct (Nat.eqb n 0); reflexivity.
  - cbn [shown_first]. rewrite (reshaped_table n m unfitted U). cbn [option_map]. rewrite !transposed_table. destruct (Nat.eqb n 0); reflexivity.
Qed.

Theorem plot_drawn : exists p, drawn_plot (fun fuel => plot_factor_2d fuel n m unfitted smoothed weights yp) p.
Proof.
  destruct (Nat.eqb n 0) eqn:N.
  - exists (picture None). exists 0%nat. intros fuel _. rewrite plot_form, N. reflexivity.
  - destruct (marginal_found (table n m (at_ refilled)) (table n m (at_ smoothed)) (table n m (at_ first)) tables) as (a & s & A).
    destruct (marginal_found (table m n (fun j i => at_ refilled i j)) (table m n (fun j i => at_ smoothed i j)) (table m n (fun j i => at_ first i j)) tables') as (b & s' & B).
    exists (picture (Some (a, b))). exists (s + s')%nat. intros fuel F. rewrite plot_form, N. unfold first_marginal, second_marginal.
    rewrite A, B by lia. reflexivity.
Qed.

Lemma plot_picture fuel p : plot_factor_2d fuel n m unfitted smoothed weights yp = Some p -> exists g, p = picture g /\
  match g with
  | Some (a, b) => n <> 0%nat /\ first_marginal fuel = Some a /\ second_marginal fuel = Some b
  | None => n = 0%nat
  end.
Proof.
  rewrite plot_form. destruct (Nat.eqb n 0) eqn:N.
  - intro H. inversion H. exists None. split; [reflexivity|now apply Nat.eqb_eq].
  - destruct (first_marginal fuel) as [a|]; [|discriminate]. destruct (second_marginal fuel) as [b|]; [|discriminate].
    intro H. inversion H. exists (Some (a, b)). split; [reflexivity|]. split; [now apply Nat.eqb_neq|auto].
Qed.

Theorem plot_pixels fuel p i j : plot_factor_2d fuel n m unfitted smoothed weights yp = Some p -> (i < n)%nat -> (j < m)%nat ->
  pixel (p_smoothed p) i j = at_ smoothed i j /\ pixel (p_deviations p) i j = at_ first i j.
Proof.
  intros H I J. destruct (plot_picture fuel p H) as (g & -> & _). cbn [picture p_smoothed p_deviations].
  split; now apply pixel_table.
Qed.

Theorem plot_limits fuel p : plot_factor_2d fuel n m unfitted smoothed weights yp = Some p -> fst (p_limits p) = - snd (p_limits p) /\
  forall i j, (i < n)%nat -> (j < m)%nat -> fst (p_limits p) <= at_ smoothed i j <= snd (p_limits p).
Proof.
  intro H. destruct (plot_picture fuel p H) as (g & -> & _). cbn [picture p_limits fst snd]. split; [reflexivity|].
  intros i j I J. unfold limit. destruct (Nat.eqb (n * m) 0) eqn:E; [apply Nat.eqb_eq in E; nia|]. unfold extremal_factor.
  set (l := concat _). assert (V : In (at_ smoothed i j) l) by (apply in_table; exists i, j; auto).
  pose proof (minimum_le _ _ V). pose proof (maximum_ge _ _ V).
  pose proof (Rmax_l (Rabs (maximum l)) (Rabs (minimum l))). pose proof (Rmax_r (Rabs (maximum l)) (Rabs (minimum l))).
  pose proof (Rle_abs (maximum l)). pose proof (Rle_abs (- minimum l)) as X. rewrite Rabs_Ropp in X. lra.
Qed.

Theorem plot_box fuel p : plot_factor_2d fuel n m unfitted smoothed weights yp = Some p ->
  (1 / 10000 < Rabs (last smoothed 0) -> i_box (p_smoothed p) = Some (last smoothed 0)) /\
  (Rabs (last smoothed 0) <= 1 / 10000 -> i_box (p_smoothed p) = None).
Proof.
  intro H. destruct (plot_picture fuel p H) as (g & -> & _). cbn [picture p_smoothed imshow_factors i_box]. split; intro B.
  - now rewrite (proj2 (Rltb_iff _ _) B).
  - now rewrite (proj2 (Rltb_false _ _) B).
Qed.

Theorem plot_axes fuel p a b : plot_factor_2d fuel n m unfitted smoothed weights yp = Some p -> p_marginals p = Some (a, b) ->
  (forall v, In v (curves a) -> on_axis (g_axis a) v) /\ (forall v, In v (curves b) -> on_axis (g_axis b) v).
Proof.
  intros H M. destruct (plot_picture fuel p H) as (g & -> & G). cbn [picture p_marginals] in M. subst g.
  destruct G as (_ & A & B). split; [exact (proj2 (marginal_covers _ _ _ _ _ _ A))|exact (proj2 (marginal_covers _ _ _ _ _ _ B))].
Qed.

Theorem plot_samples fuel p : plot_factor_2d fuel n m unfitted smoothed weights yp = Some p -> (p_marginals p = None <-> n = 0%nat).
Proof. intro H. destruct (plot_picture fuel p H) as ([[a b]|] & -> & G); cbn [picture p_marginals]; split; intuition congruence. Qed.

Lemma plot_lines fuel p a b : plot_factor_2d fuel n m unfitted smoothed weights yp = Some p -> p_marginals p = Some (a, b) ->
  g_smoothed a = map (line m (at_ refilled) (at_ smoothed)) (seq 0 n) /\
  g_smoothed b = map (line n (fun j i => at_ refilled i j) (fun j i => at_ smoothed i j)) (seq 0 m).
Proof.
  intros H M. destruct (plot_picture fuel p H) as (g & -> & G). cbn [picture p_marginals] in M. subst g.
  destruct G as (_ & A & B). rewrite (proj1 (marginal_covers _ _ _ _ _ _ A)), (proj1 (marginal_covers _ _ _ _ _ _ B)), !marginal_table. auto.
Qed.

(** The weights after drawing. *)
Theorem plot_weights fuel p : plot_factor_2d fuel n m unfitted smoothed weights yp = Some p ->
  (occupied_bins n m weights \/ n = 0%nat -> p_weights p = weights) /\
  (n <> 0%nat -> forall i j, (i < n)%nat -> (j < m)%nat -> at_ weights i j = 0 -> at_ (p_weights p) i j = 1).
Proof.
  intro H. destruct (plot_picture fuel p H) as (g & -> & _). cbn [picture p_weights]. unfold weights_after. split.
  - intro O. destruct (Nat.eqb n 0) eqn:N; [reflexivity|]. apply Nat.eqb_neq in N. destruct O as [O|O]; [|contradiction].
    destruct input as (_ & _ & W & _). unfold recorded_for in W. unfold refilled.
    transitivity (removelast weights ++ [last weights 0]); [|symmetry; apply app_removelast_last; intro X; rewrite X in W; discriminate W]. f_equal.
    rewrite <- (map_id (removelast weights)) at 2. apply map_ext_in. intros w I. unfold filled.
    rewrite (proj2 (Reqb_false_iff w 0)); [reflexivity|]. apply (In_nth _ _ 0) in I as (k & K & <-). rewrite length_removelast, W in K.
    rewrite nth_removelast by lia. destruct m as [|m'] eqn:M; [lia|]. rewrite <- M in *.
    specialize (O (k / m)%nat (k mod m)%nat). rewrite at_bins_nth in O.
    replace (k / m * m + k mod m)%nat with k in O by (pose proof (Nat.div_mod k m ltac:(lia)); lia).
    assert (0 < nth k weights 0); [|lra]. apply O; [apply Nat.div_lt_upper_bound; lia|apply Nat.mod_upper_bound; lia].
  - intros N i j I J Z. apply Nat.eqb_neq in N. rewrite N, refilled_at, Z by assumption. unfold filled. now rewrite (proj2 (Reqb_iff 0 0)).
Qed.
End Plot.

(** Drawing it again gives the same plot. *)
Lemma filled_twice w : filled (filled w) = filled w.
Proof. unfold filled at 2 3. destruct (Reqb w 0) eqn:E; unfold filled; [|now rewrite E]. rewrite (proj2 (Reqb_false_iff 1 0)) by lra. reflexivity. Qed.
Lemma refilled_twice w : refilled (refilled w) = refilled w.
Proof. unfold refilled. rewrite removelast_last, last_last, map_map. f_equal. apply map_ext. exact filled_twice. Qed.
Theorem plot_again n m unfitted smoothed weights yp fuel p : plot_input n m unfitted smoothed weights yp ->
  plot_factor_2d fuel n m unfitted smoothed weights yp = Some p ->
  plot_factor_2d fuel n m unfitted smoothed (p_weights p) yp = Some p.
Proof.
  intros I H. destruct (plot_picture _ _ _ _ _ _ I fuel p H) as (g & E & _). subst p. cbn [picture p_weights]. unfold weights_after.
  destruct (Nat.eqb n 0) eqn:N; [exact H|].
  assert (I' : plot_input n m unfitted smoothed (refilled weights) yp).
  { pose proof (refilled_for _ _ _ _ _ _ I) as F. destruct I as (A & B & _ & C). repeat split; try assumption; apply (C _ _ _ H0). }
  rewrite <- H. rewrite (plot_form _ _ _ _ _ _ I'), (plot_form _ _ _ _ _ _ I), N.
  unfold first_marginal, second_marginal, picture, weights_after. rewrite N, refilled_twice. reflexivity.
Qed.

(** * Marginals *)
Lemma weighted_range m (w x : nat -> R) lo hi : (forall j, (j < m)%nat -> 0 <= w j /\ lo <= x j <= hi) -> 0 < sumR (map w (seq 0 m)) ->
  lo <= sumR (map (fun j => w j * x j) (seq 0 m)) / sumR (map w (seq 0 m)) <= hi.
Proof.
  intros H P. set (W := sumR (map w (seq 0 m))) in *. set (X := sumR (map (fun j => w j * x j) (seq 0 m))).
  assert (B : lo * W <= X <= hi * W).
  { unfold W, X. clear P X W. assert (H' : forall j, In j (seq 0 m) -> 0 <= w j /\ lo <= x j <= hi) by (intros j J; apply in_seq in J; apply H; lia).
    clear H. induction (seq 0 m) as [|j l IH]; cbn [map sumR]; [lra|].
    destruct (H' j (or_introl eq_refl)) as (A & B & C). specialize (IH (fun k K => H' k (or_intror K))). nra. }
  assert (E : X / W * W = X) by (field; lra). split; apply Rmult_le_reg_r with W; try exact P; rewrite E; lra.
Qed.

Lemma sum_positive m (w : nat -> R) : (0 < m)%nat -> (forall j, (j < m)%nat -> 0 < w j) -> 0 < sumR (map w (seq 0 m)).
Proof.
  intros M H. destruct m as [|m]; [lia|]. cbn [seq map sumR]. assert (0 <= sumR (map w (seq 1 m))).
  { apply sumR_nonneg. intros j J. apply in_seq in J. left. apply H. lia. } pose proof (H 0%nat ltac:(lia)). lra.
Qed.

Lemma exp_line m w x i : (0 < m)%nat -> (forall j, (j < m)%nat -> 0 < w i j) ->
  exp (line m w x i) = sumR (map (fun j => w i j * exp (x i j)) (seq 0 m)) / sumR (map (w i) (seq 0 m)).
Proof.
  intros M H. unfold line. apply exp_ln. apply Rdiv_lt_0_compat; [|now apply sum_positive].
  apply (sum_positive m (fun j => w i j * exp (x i j)) M). intros j J. apply Rmult_lt_0_compat; [now apply H|apply exp_pos].
Qed.

Lemma exp_le a b : a <= b <-> exp a <= exp b.
Proof.
  split; intro H.
  - destruct H as [H| ->]; [left; now apply exp_increasing|right; reflexivity].
  - destruct (Rle_lt_dec a b) as [L|L]; [exact L|]. apply exp_increasing in L. lra.
Qed.

Lemma line_range m w x i lo hi : (0 < m)%nat -> (forall j, (j < m)%nat -> 0 < w i j) -> (forall j, (j < m)%nat -> lo <= x i j <= hi) ->
  lo <= line m w x i <= hi.
Proof.
  intros M H X. assert (E : exp lo <= exp (line m w x i) <= exp hi).
  { rewrite exp_line by assumption. apply (weighted_range m (w i) (fun j => exp (x i j))); [|now apply sum_positive].
    intros j J. split; [left; now apply H|]. destruct (X j J). split; apply (proj1 (exp_le _ _)); assumption. }
  split; apply (proj2 (exp_le _ _)); apply E.
Qed.

Lemma filled_positive w : 0 <= w -> 0 < filled w.
Proof. intro H. unfold filled. destruct (Reqb w 0) eqn:E; [lra|]. apply Reqb_false_iff in E. lra. Qed.
Lemma filled_occupied w : 0 < w -> filled w = w.
Proof. intro H. unfold filled. rewrite (proj2 (Reqb_false_iff w 0)) by lra. reflexivity. Qed.

Section Marginals.
Variables (n m : nat) (unfitted smoothed weights : list R) (yp : option (list R * list R * list R)).
Hypothesis input : plot_input n m unfitted smoothed weights yp.
Variables (fuel : nat) (p : plot) (a b : marginal).
Hypothesis drawn : plot_factor_2d fuel n m unfitted smoothed weights yp = Some p.
Hypothesis shown : p_marginals p = Some (a, b).
Notation at_ := (at_bins n m).

Theorem marginal_range : nonneg_bins n m weights -> (0 < n)%nat -> (0 < m)%nat ->
  (length (g_smoothed a) = n /\ forall i lo hi, (i < n)%nat -> (forall j, (j < m)%nat -> lo <= at_ smoothed i j <= hi) -> lo <= nth i (g_smoothed a) 0 <= hi) /\
  (length (g_smoothed b) = m /\ forall j lo hi, (j < m)%nat -> (forall i, (i < n)%nat -> lo <= at_ smoothed i j <= hi) -> lo <= nth j (g_smoothed b) 0 <= hi).
Proof.
  intros W N M. destruct (plot_lines _ _ _ _ _ _ input fuel p a b drawn shown) as (A & B). rewrite A, B, !map_length, !seq_length.
  split; (split; [reflexivity|]); intros k lo hi K H; rewrite nth_seq by exact K; apply line_range; try assumption; intros l L; cbv beta;
    rewrite (refilled_at _ _ _ _ _ _ input) by assumption; apply filled_positive; now apply W.
Qed.

Theorem marginal_means : occupied_bins n m weights -> (0 < n)%nat -> (0 < m)%nat ->
  (forall i, (i < n)%nat -> exp (nth i (g_smoothed a) 0) =
     sumR (map (fun j => at_ weights i j * exp (at_ smoothed i j)) (seq 0 m)) / sumR (map (fun j => at_ weights i j) (seq 0 m))) /\
  (forall j, (j < m)%nat -> exp (nth j (g_smoothed b) 0) =
     sumR (map (fun i => at_ weights i j * exp (at_ smoothed i j)) (seq 0 n)) / sumR (map (fun i => at_ weights i j) (seq 0 n))).
Proof.
  intros W N M. destruct (plot_lines _ _ _ _ _ _ input fuel p a b drawn shown) as (A & B). rewrite A, B.
  assert (E : forall i j, (i < n)%nat -> (j < m)%nat -> at_ (refilled weights) i j = at_ weights i j).
  { intros i j I J. rewrite (refilled_at _ _ _ _ _ _ input) by assumption. apply filled_occupied. now apply W. }
  split; intros k K; rewrite nth_seq by exact K; rewrite exp_line; try assumption.
  - f_equal; apply sumR_ext; intros j J; apply in_seq in J; rewrite E by lia; reflexivity.
  - intros j J. rewrite E by assumption. now apply W.
  - f_equal; apply sumR_ext; intros j J; apply in_seq in J; rewrite E by lia; reflexivity.
  - intros j J. rewrite E by assumption. now apply W.
Qed.
End Marginals.

(** * Rows *)
Lemma pick (g : nat -> R) k n : (k < n)%nat -> sumR (map (fun i => if (k =? i)%nat then g i else 0) (seq 0 n)) = g k.
Proof.
  intro K. rewrite <- (sumR_indicator g k n 0) by lia. apply sumR_ext. intros i _. rewrite Nat.eqb_sym. destruct (i =? k)%nat; lra.
Qed.
Section Rows.
Variables n m : nat.
Lemma weights_at rows i j : (i < n)%nat -> (j < m)%nat ->
  at_bins n m (recorded_weights n m rows) i j = bin_total (map (fun r => number_of n m (fst r)) rows) (map snd rows) (i * m + j).
Proof.
  intros I J. rewrite at_bins_nth. unfold recorded_weights, bincounts. apply nth_seq. nia.
Qed.
Lemma number_nat i j : number_of n m (Some (i, j)) = (i * m + j)%nat.
Proof. cbn [number_of number size]. lia. Qed.
Lemma same_number i j i' j' : (j < m)%nat -> (j' < m)%nat -> (i' * m + j' =? i * m + j)%nat = ((i' =? i) && (j' =? j))%nat.
Proof.
  intros J J'. destruct (Nat.eqb_spec i' i) as [->|N]; cbn [andb].
  - destruct (Nat.eqb_spec j' j) as [->|N]; [apply Nat.eqb_refl|]. apply Nat.eqb_neq. lia.
  - apply Nat.eqb_neq. intro E. apply N. nia.
Qed.

Lemma first_sum rows f i : rows_of_table n m rows -> (i < n)%nat ->
  sumR (map (fun j => at_bins n m (recorded_weights n m rows) i j * f i j) (seq 0 m)) = row_sum (first_is i) f rows.
Proof.
  intros T I. rewrite (sumR_ext _ (fun j => bin_total (map (fun r => number_of n m (fst r)) rows) (map snd rows) (i * m + j) * f i j)).
  2:{ intros j J. apply in_seq in J. rewrite weights_at by lia. reflexivity. }
  unfold row_sum. induction T as [|[[[i' j']|] w] rows (W & B) T IH]; cbn [map bin_total sumR fst snd].
  - rewrite (sumR_ext _ (fun _ => 0)) by (intros; lra). apply sumR_zero.
  - destruct (B i' j' eq_refl) as (I' & J'). rewrite <- IH.
    rewrite (sumR_ext _ (fun j => (if (j' =? j)%nat then (if (i' =? i)%nat then w * f i j else 0) else 0) +
      bin_total (map (fun r => number_of n m (fst r)) rows) (map snd rows) (i * m + j) * f i j)).
    2:{ intros j J. apply in_seq in J. rewrite number_nat, same_number by lia.
        destruct (i' =? i)%nat, (j' =? j)%nat; cbn [andb]; lra. }
    rewrite sumR_plus. f_equal. unfold first_is.
    rewrite (pick (fun j => if (i' =? i)%nat then w * f i j else 0) j' m) by lia.
    destruct (Nat.eqb_spec i' i) as [->|]; reflexivity.
  - rewrite <- IH, Rplus_0_l. apply sumR_ext. intros j J. apply in_seq in J. cbn [number_of].
    replace (n * m =? i * m + j)%nat with false by (symmetry; apply Nat.eqb_neq; nia). lra.
Qed.

Lemma second_sum rows f j : rows_of_table n m rows -> (j < m)%nat ->
  sumR (map (fun i => at_bins n m (recorded_weights n m rows) i j * f i j) (seq 0 n)) = row_sum (second_is j) f rows.
Proof.
  intros T J. rewrite (sumR_ext _ (fun i => bin_total (map (fun r => number_of n m (fst r)) rows) (map snd rows) (i * m + j) * f i j)).
  2:{ intros i I. apply in_seq in I. rewrite weights_at by lia. reflexivity. }
  unfold row_sum. induction T as [|[[[i' j']|] w] rows (W & B) T IH]; cbn [map bin_total sumR fst snd].
  - rewrite (sumR_ext _ (fun _ => 0)) by (intros; lra). apply sumR_zero.
  - destruct (B i' j' eq_refl) as (I' & J'). rewrite <- IH.
    rewrite (sumR_ext _ (fun i => (if (i' =? i)%nat then (if (j' =? j)%nat then w * f i j else 0) else 0) +
      bin_total (map (fun r => number_of n m (fst r)) rows) (map snd rows) (i * m + j) * f i j)).
    2:{ intros i I. apply in_seq in I. rewrite number_nat, same_number by lia.
        destruct (i' =? i)%nat, (j' =? j)%nat; cbn [andb]; lra. }
    rewrite sumR_plus. f_equal. unfold second_is.
    rewrite (pick (fun i => if (j' =? j)%nat then w * f i j else 0) i' n) by lia.
    destruct (Nat.eqb_spec j' j) as [->|]; reflexivity.
  - rewrite <- IH, Rplus_0_l. apply sumR_ext. intros i I. apply in_seq in I. cbn [number_of].
    replace (n * m =? i * m + j)%nat with false by (symmetry; apply Nat.eqb_neq; nia). lra.
Qed.
End Rows.

Theorem row_means n m unfitted smoothed yp rows fuel p a b :
  let weights := recorded_weights n m rows in
  plot_input n m unfitted smoothed weights yp -> rows_of_table n m rows -> occupied_bins n m weights -> (0 < n)%nat -> (0 < m)%nat ->
  plot_factor_2d fuel n m unfitted smoothed weights yp = Some p -> p_marginals p = Some (a, b) ->
  (forall i, (i < n)%nat -> exp (nth i (g_smoothed a) 0) = mean_factor n m smoothed (first_is i) rows) /\
  (forall j, (j < m)%nat -> exp (nth j (g_smoothed b) 0) = mean_factor n m smoothed (second_is j) rows).
Proof.
  cbv zeta. intros I T O N M P G. destruct (marginal_means _ _ _ _ _ _ I fuel p a b P G O N M) as (A & B).
  unfold mean_factor. split; intros k K.
  - rewrite (A k K), (first_sum n m rows (fun i j => exp (at_bins n m smoothed i j)) k T K). f_equal.
    rewrite <- (first_sum n m rows (fun _ _ => 1) k T K). apply sumR_ext. intros; lra.
  - rewrite (B k K), (second_sum n m rows (fun i j => exp (at_bins n m smoothed i j)) k T K). f_equal.
    rewrite <- (second_sum n m rows (fun _ _ => 1) k T K). apply sumR_ext. intros; lra.
Qed.
