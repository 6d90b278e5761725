(** Spline smoothers. *)
From Coq Require Import List Sorted Bool Arith Reals Lra Lia.
From Verif.Model Require Import Train LsqSpline.
From Verif.Spec Require Import LsqSplineSpec.
Import ListNotations.
Local Open Scope R_scope.

Theorem degree_checked o knots k st X y :
  snd (lsq_fit o knots k st X y) = DegreeError <-> ((5 < k)%nat \/ (length X <= k)%nat).
Proof.
  unfold lsq_fit. destruct (Nat.leb_spec k 5), (Nat.ltb_spec k (length X)); cbn [andb].
  - destruct (o _ _ _ _ _); cbn; split; intro; [discriminate|lia|discriminate|lia].
  - cbn. split; intro; auto.
  - cbn. split; intro; auto.
  - cbn. split; intro; auto.
Qed.

Theorem states o knots k st X y : 
  (snd (lsq_fit o knots k st X y) <> Learned -> fst (lsq_fit o knots k st X y) = st) /\
  (snd (lsq_fit o knots k st X y) = Learned -> forall q, exists p, spline_predict (fst (lsq_fit o knots k st X y)) q = Some p /\ length p = length q) /\
  (forall q, spline_predict None q = None).
Proof.
  unfold lsq_fit. destruct (_ && _); [|cbn; repeat split; auto; discriminate].
  destruct (o _ _ _ _ _) as [s|]; cbn; repeat split; auto; try discriminate; try congruence.
  intros _ q. exists (map s q). split; auto. apply map_length.
Qed.

Lemma deviations_nonneg share X y s : (forall r, In r X -> 0 <= share (snd r)) -> 0 <= deviations share X y s.
Proof.
  revert y. induction X as [|[x w] X IH]; intros [|v y] P; cbn [deviations]; try lra.
  assert (0 <= deviations share X y s) by (apply IH; intros r I; apply P; right; exact I).
  pose proof (P (x, w) (or_introl eq_refl)). cbn [snd] in *. pose proof (pow2_ge_0 (v - s x)). nra.
Qed.

Lemma deviations_zero X y s : length y = length X -> (forall r, In r X -> snd r <> 0) ->
  deviations squared_weight X y s <= 0 -> map s (map fst X) = y.
Proof.
  revert y. induction X as [|[x w] X IH]; intros [|v y] L P D; cbn [length] in L; try discriminate; auto.
  cbn [deviations] in D.
  assert (N : 0 <= deviations squared_weight X y s).
  { apply deviations_nonneg. intros r _. unfold squared_weight. apply pow2_ge_0. }
  pose proof (P (x, w) (or_introl eq_refl)) as W. cbn [snd] in W.
  assert (W2 : 0 < w ^ 2) by nra.
  pose proof (pow2_ge_0 (v - s x)) as Q. unfold squared_weight in D at 1.
  assert (Z : (v - s x) ^ 2 = 0) by nra.
  cbn [map fst]. f_equal.
  - assert (v - s x = 0) by nra. lra.
  - apply IH; [lia| |nra]. intros r I. apply P. right. exact I.
Qed.

(** Data on a spline. *)
Lemma deviations_exact share X s : deviations share X (map s (map fst X)) s = 0.
Proof. induction X as [|[x w] X IH]; cbn [map fst deviations]; [reflexivity|]. rewrite IH. ring. Qed.

Theorem reproduced o knots k st X p st' :
  follows_lsq o -> StronglySorted Rlt knots -> (forall r, In r X -> 0 < snd r) -> is_spline k knots p ->
  lsq_fit o knots k st X (map p (map fst X)) = (st', Learned) ->
  spline_predict st' (map fst X) = Some (map p (map fst X)).
Proof.
  intros O T W P. unfold lsq_fit. destruct (_ && _); [|discriminate].
  destruct (o _ _ _ _ _) as [s|] eqn:E; [|discriminate]. intro H. injection H as <-. cbn [spline_predict]. f_equal.
  destruct (O X _ knots k s T E) as (_ & M). specialize (M p P). rewrite deviations_exact in M.
  apply deviations_zero; auto. rewrite !map_length. reflexivity.
  intros r I. pose proof (W r I). lra.
Qed.

Lemma deviations_equal w X y s : (forall r, In r X -> snd r = w) ->
  deviations squared_weight X y s = w * deviations by_weight X y s.
Proof.
  revert y. induction X as [|[x v] X IH]; intros [|z y] P; cbn [deviations]; try ring.
  rewrite IH by (intros r I; apply P; right; exact I). pose proof (P (x, v) (or_introl eq_refl)) as E. cbn [snd] in E. subst v.
  unfold squared_weight, by_weight. ring.
Qed.

Theorem equal_weights o knots k st X y w s :
  follows_lsq o -> StronglySorted Rlt knots -> 0 < w -> (forall r, In r X -> snd r = w) ->
  lsq_fit o knots k st X y = (Some s, Learned) ->
  is_spline k knots s /\ forall s', is_spline k knots s' -> deviations by_weight X y s <= deviations by_weight X y s'.
Proof.
  intros O T W P. unfold lsq_fit. destruct (_ && _); [|discriminate].
  destruct (o _ _ _ _ _) as [f|] eqn:E; [|discriminate]. intro H. injection H as <-.
  destruct (O X _ knots k f T E) as (S & M). split; auto. intros s' S'. specialize (M s' S').
  rewrite !(deviations_equal w) in M by auto. nra.
Qed.

(** Smoothing splines. *)
Lemma deviations_above X y s : (forall r, In r X -> 1 <= snd r) ->
  deviations by_weight X y s <= deviations squared_weight X y s.
Proof.
  revert y. induction X as [|[x w] X IH]; intros [|v y] P; cbn [deviations]; try lra.
  assert (deviations by_weight X y s <= deviations squared_weight X y s) by (apply IH; intros r I; apply P; right; exact I).
  pose proof (P (x, w) (or_introl eq_refl)) as W. cbn [snd] in W. unfold by_weight at 1, squared_weight at 1.
  pose proof (pow2_ge_0 (v - s x)). assert (w <= w ^ 2) by nra. nra.
Qed.

Theorem smoothed o k s st X y st' f :
  follows_univariate o -> univariate_fit o k s st X y = (st', Learned) -> st' = Some f ->
  ((forall r, In r X -> 1 <= snd r) -> deviations by_weight X y f <= smoothing_factor s X) /\
  (s = Some 0 -> length y = length X -> (forall r, In r X -> snd r <> 0) -> spline_predict st' (map fst X) = Some y).
Proof.
  intros O. unfold univariate_fit. destruct (o _ _ _ _ _) as [g|] eqn:E; [|discriminate]. intros H F. injection H as <-. injection F as ->.
  specialize (O X y k s f E). split.
  - intro W. pose proof (deviations_above X y f W). lra.
  - intros -> L W. cbn [smoothing_factor] in O. cbn [spline_predict]. f_equal. apply deviations_zero; auto.
Qed.
