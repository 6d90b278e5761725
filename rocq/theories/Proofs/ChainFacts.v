(** The extended versions in their three spaces, and the quantile regressor chain. *)
From Coq Require Import List Bool Reals Lra Lia.
From Verif.Model Require Import Train Qpd.
From Verif.Spec Require Import QpdSpec.
From Verif.Proofs Require Import TrainFacts TrainExamples LinkFacts QpdFacts.
Import ListNotations.
Local Open Scope R_scope.

Lemma into_s_above : forall l v, l < v -> into_s l v = Some (ln (v - l)).
Proof.
  intros l v H. unfold into_s, transform_from_semibound_lower, log_opt. cbv zeta.
  rewrite (proj2 (Reqb_false_iff (v - l) 0)) by lra. now rewrite (proj2 (Rltb_iff 0 (v - l))) by lra.
Qed.
Lemma odds_pos : forall l u v, l < v < u -> 0 < (v - l) / (u - v).
Proof. intros. apply Rdiv_lt_0_compat; lra. Qed.
Lemma into_b_between : forall l u v, l < v < u -> into_b l u v = Some (ln ((v - l) / (u - v))).
Proof.
  intros l u v H. unfold into_b, transform_from_bounds, log_opt. cbv zeta.
  pose proof (share l u v H) as S. rewrite (proj2 (Reqb_false_iff ((v - l) / (u - l)) 1)) by lra.
  replace ((v - l) / (u - l) / (1 - (v - l) / (u - l))) with ((v - l) / (u - v)) by (field; lra).
  pose proof (odds_pos l u v H). rewrite (proj2 (Reqb_false_iff _ 0)) by lra. now rewrite (proj2 (Rltb_iff 0 _)) by lra.
Qed.
Lemma back_b_between : forall l u z, l < u -> l < back_transform_in_bounds z l u < u.
Proof.
  intros l u z H. unfold back_transform_in_bounds. fold (sigmoid z). pose proof (sigmoid_range z).
  split; nra.
Qed.
Lemma back_b_odds : forall l u v, l < v < u -> back_transform_in_bounds (ln ((v - l) / (u - v))) l u = v.
Proof.
  intros l u v H. unfold back_transform_in_bounds. rewrite exp_Ropp, exp_ln by now apply odds_pos. field. lra.
Qed.
Lemma odds_back_b : forall l u z, l < u ->
  ln ((back_transform_in_bounds z l u - l) / (u - back_transform_in_bounds z l u)) = z.
Proof.
  intros l u z H. unfold back_transform_in_bounds. fold (sigmoid z). rewrite <- (logit_sigmoid z) at 3. f_equal.
  pose proof (sigmoid_range z). field. split; [lra|]. nra.
Qed.

Section Extended.
Variables (d : dist) (alpha : R).
Hypothesis BD : base_distribution d.
Hypothesis HA : 0 < alpha < 1 / 2.
Lemma extended_unbounded : forall t, ordered t -> qv_low t + qv_high t <> 2 * qv_median t ->
  interpolates alpha t (ppf_extended d alpha back_u (fit_extended into_u t)) (cdf_extended d alpha into_u (fit_extended into_u t)) everywhere.
Proof.
  intros t Ho Hs. apply extended_interpolates with (L := qv_low t) (B := qv_median t) (H := qv_high t); try assumption; try reflexivity; try exact I.
  - intros z w H. exact H.
  - intro z. split; [exact I|reflexivity].
  - intros v _. exists v. split; reflexivity.
Qed.
Lemma extended_semibounded : forall t l, ordered t -> l < qv_low t ->
  (qv_low t - l) * (qv_high t - l) <> (qv_median t - l) ^ 2 ->
  interpolates alpha t (ppf_extended d alpha (back_s l) (fit_extended (into_s l) t)) (cdf_extended d alpha (into_s l) (fit_extended (into_s l) t)) (above l).
Proof.
  intros t l Ho Hl Hs. destruct Ho as [O1 O2].
  apply extended_interpolates with (L := ln (qv_low t - l)) (B := ln (qv_median t - l)) (H := ln (qv_high t - l)); try assumption.
  - intros z w H. unfold back_s, back_transform_in_semibound_lower. apply Rplus_lt_compat_l. now apply exp_increasing.
  - intro z. unfold above, back_s, back_transform_in_semibound_lower. pose proof (exp_pos z). split; [lra|].
    rewrite into_s_above by lra. f_equal. replace (l + exp z - l) with (exp z) by ring. apply ln_exp.
  - intros v Hv. exists (ln (v - l)). split; [now apply into_s_above|]. unfold back_s, back_transform_in_semibound_lower.
    rewrite exp_ln by (unfold above in Hv; lra). ring.
  - split; assumption.
  - apply into_s_above; lra.
  - apply into_s_above; lra.
  - apply into_s_above; lra.
  - unfold above; lra.
  - unfold above; lra.
  - intro E. apply Hs. rewrite <- ln_mult in E by lra.
    replace (2 * ln (qv_median t - l)) with (ln (qv_median t - l) + ln (qv_median t - l)) in E by ring. rewrite <- ln_mult in E by lra.
    replace ((qv_median t - l) ^ 2) with ((qv_median t - l) * (qv_median t - l)) by ring.
    apply ln_inv; [apply Rmult_lt_0_compat; lra|apply Rmult_lt_0_compat; lra|lra].
Qed.
Lemma extended_bounded : forall t l u, ordered t -> l < qv_low t -> qv_high t < u ->
  (qv_low t - l) / (u - qv_low t) * ((qv_high t - l) / (u - qv_high t)) <> ((qv_median t - l) / (u - qv_median t)) ^ 2 ->
  interpolates alpha t (ppf_extended d alpha (back_b l u) (fit_extended (into_b l u) t)) (cdf_extended d alpha (into_b l u) (fit_extended (into_b l u) t)) (between l u).
Proof.
  intros t l u Ho Hl Hu Hs. destruct Ho as [O1 O2].
  pose proof (odds_pos l u (qv_low t) ltac:(lra)) as PL. pose proof (odds_pos l u (qv_median t) ltac:(lra)) as PB. pose proof (odds_pos l u (qv_high t) ltac:(lra)) as PH.
  apply extended_interpolates with (L := ln ((qv_low t - l) / (u - qv_low t))) (B := ln ((qv_median t - l) / (u - qv_median t))) (H := ln ((qv_high t - l) / (u - qv_high t))); try assumption.
  - intros z w H. unfold back_b, back_transform_in_bounds. apply Rplus_lt_compat_l, Rmult_lt_compat_l; [lra|]. now apply sigmoid_increasing.
  - intro z. unfold back_b. pose proof (back_b_between l u z ltac:(lra)) as P. split; [exact P|].
    rewrite into_b_between by assumption. f_equal. apply odds_back_b. lra.
  - intros v Hv. exists (ln ((v - l) / (u - v))). split; [now apply into_b_between|now apply back_b_odds].
  - split; assumption.
  - apply into_b_between; lra.
  - apply into_b_between; lra.
  - apply into_b_between; lra.
  - unfold between; lra.
  - unfold between; lra.
  - unfold between; lra.
  - intro E. apply Hs. rewrite <- ln_mult in E by assumption.
    set (o := (qv_median t - l) / (u - qv_median t)) in *. replace (2 * ln o) with (ln o + ln o) in E by ring. rewrite <- ln_mult in E by assumption.
    replace (o ^ 2) with (o * o) by ring. apply ln_inv; [now apply Rmult_lt_0_compat|now apply Rmult_lt_0_compat|exact E].
Qed.
End Extended.

(** A lower value at the bound is not reproduced, and the cdf is not monotone there. *)
Lemma tiny_pos : 0 < tiny < 1 / 10.
Proof. unfold tiny. lra. Qed.
Lemma into_s_bound : forall l, into_s l l = Some (ln tiny).
Proof.
  intro l. unfold into_s, transform_from_semibound_lower, log_opt. cbv zeta. rewrite (proj2 (Reqb_iff (l - l) 0)) by ring.
  now rewrite (proj2 (Rltb_iff 0 tiny)) by apply tiny_pos.
Qed.
Lemma extended_at_bound : forall d alpha, base_distribution d -> 0 < alpha < 1 / 2 ->
  ppf_extended d alpha (back_s 0) (fit_extended (into_s 0) {| qv_low := 0; qv_median := 1; qv_high := 2 |}) alpha = Some tiny.
Proof.
  intros d a BD HA. unfold fit_extended, monotonic; cbn [qv_low qv_median qv_high].
  rewrite !(proj2 (Rltb_false _ _)) by lra. cbn [negb andb]. rewrite into_s_bound, !into_s_above by lra.
  replace (1 - 0) with 1 by ring. replace (2 - 0) with 2 by ring. rewrite ln_1.
  pose proof tiny_pos as T.
  assert (L2 : 0 < ln 2) by (rewrite <- ln_1; apply ln_increasing; lra).
  assert (LT : ln tiny < - ln 2).
  { rewrite <- ln_Rinv by lra. apply ln_increasing; lra. }
  destruct (johnson_fit d a BD HA (ln tiny) 0 (ln 2)) as [j [F [_ [_ [V _]]]]]; [lra|lra|].
  rewrite F. cbn [ppf_extended]. rewrite V. unfold back_s, back_transform_in_semibound_lower. rewrite exp_ln by lra. f_equal. ring.
Qed.
Lemma extended_cdf_decreasing : forall d alpha t l, base_distribution d -> 0 < alpha < 1 / 2 -> ordered t -> l < qv_low t ->
  (qv_low t - l) * (qv_high t - l) <> (qv_median t - l) ^ 2 ->
  exists v p q, l < v /\ cdf_extended d alpha (into_s l) (fit_extended (into_s l) t) l = Some p /\
    cdf_extended d alpha (into_s l) (fit_extended (into_s l) t) v = Some q /\ q < p.
Proof.
  intros d a t l BD HA Ho Hl Hs. pose proof tiny_pos as T.
  destruct (extended_semibounded d a BD HA t l Ho Hl Hs) as [_ [_ [_ [M [_ V]]]]].
  destruct (V (l + tiny) ltac:(unfold above; lra)) as [p [P1 [P2 P3]]].
  destruct (V (l + tiny / 2) ltac:(unfold above; lra)) as [q [Q1 [Q2 Q3]]].
  exists (l + tiny / 2), p, q. split; [lra|split; [|split; [assumption|]]].
  - rewrite <- P2. unfold cdf_extended. rewrite into_s_bound, (into_s_above l (l + tiny)) by lra.
    now replace (l + tiny - l) with tiny by ring.
  - destruct (Rtotal_order q p) as [H|[H|H]]; [assumption|subst q; rewrite P3 in Q3; injection Q3; lra|exfalso].
    destruct (M p q ltac:(lra) H ltac:(lra)) as [v1 [v2 [E1 [E2 E3]]]]. rewrite P3 in E1; rewrite Q3 in E2. injection E1; injection E2. intros; subst. lra.
Qed.
Lemma cdf_below : forall phi alpha t l v, v < l -> cdf_s_opt phi (fit_s phi alpha t l) v = None.
Proof.
  intros phi a t l v H. unfold fit_s. destruct (_ && _ && _); [|reflexivity].
  destruct (_ || _); [reflexivity|]. destruct (Reqb _ 0); [reflexivity|]. cbn [cdf_s_opt]. unfold cdf_s. cbn [s_l].
  now rewrite (proj2 (Rltb_iff v l)).
Qed.

(** ** The chain *)
Section Chain.
Context {X : Type}.
Variables (em el eh : estimator (X := X)).
Lemma chain_order_s : forall l u fitted (x : X), let t := chain_predict SemiBound l u fitted x in ordered t /\ l < qv_low t.
Proof.
  intros l u [[m lo] hi] x. cbn. unfold ordered; cbn [qv_low qv_median qv_high]. unfold back_transform_in_semibound_lower.
  pose proof (exp_pos (m x)). pose proof (exp_pos (hi x)). pose proof (back_b_between l (l + exp (m x)) (lo x) ltac:(lra)). lra.
Qed.
Lemma chain_order_b : forall l u fitted (x : X), l < u -> let t := chain_predict Bound l u fitted x in ordered t /\ l < qv_low t /\ qv_high t < u.
Proof.
  intros l u [[m lo] hi] x Hlu. cbn. unfold ordered; cbn [qv_low qv_median qv_high].
  pose proof (back_b_between l u (m x) Hlu) as P. set (pm := back_transform_in_bounds (m x) l u) in *.
  pose proof (back_b_between l pm (lo x) ltac:(lra)). pose proof (back_b_between pm u (hi x) ltac:(lra)). lra.
Qed.

Lemma map2_rows : forall {W A B C} (g : A -> B -> C) (a : W -> A) (b : W -> B) rs,
  map2 g (map a rs) (map b rs) = map (fun r => g (a r) (b r)) rs.
Proof. intros W A B C g a b rs. induction rs as [|r rs IH]; [reflexivity|]. cbn. now rewrite IH. Qed.
Lemma keep_rows : forall {W A} (f : W -> bool) (a : W -> A) rs, keep (map f rs) (map a rs) = map a (filter f rs).
Proof.
  intros W A f a rs. unfold keep. induction rs as [|r rs IH]; [reflexivity|]. cbn. destruct (f r); cbn; now rewrite IH.
Qed.
Lemma keep_rows_self : forall {W} (f : W -> bool) rs, keep (map f rs) rs = filter f rs.
Proof. intros W f rs. unfold keep. induction rs as [|r rs IH]; [reflexivity|]. cbn. destruct (f r); cbn; now rewrite IH. Qed.
Lemma nodup_filter_fst : forall {A B} (f : A * B -> bool) rs, NoDup (map fst rs) -> NoDup (map fst (filter f rs)).
Proof.
  intros A B f rs. induction rs as [|r rs IH]; intro N; [constructor|]. cbn in *. inversion N as [|? ? N1 N2]; subst.
  destruct (f r); cbn; [constructor|]; try now apply IH.
  intro H. apply N1. apply in_map_iff in H as [r' [E1 E2]]. apply filter_In in E2 as [E2 _]. apply in_map_iff. now exists r'.
Qed.
Lemma memorised : forall (est : estimator (X := X)) (F : list (X * R)) (h : X * R -> option R) r z,
  memorises est -> NoDup (map fst F) -> In r F -> h r = Some z -> est (map fst F) (map h F) (fst r) = z.
Proof.
  intros est F h r z M N H E. apply M; [assumption|now rewrite !map_length|].
  clear N. induction F as [|r' F IH]; [destruct H|]. destruct H as [->|H]; cbn; [left; now rewrite E|right; now apply IH].
Qed.

Variables (bnd : bound) (l u : R).
Definition target_median (v : R) : option R :=
  match bnd with SemiBound => transform_from_semibound_lower v l | Bound => transform_from_bounds v l u end.
Definition row_median (m : X -> R) (r : X * R) : R := back_median bnd l u (m (fst r)).
Definition row_below m (r : X * R) : bool := Rltb (snd r / row_median m r) 1.
Definition row_low m (lo : X -> R) (r : X * R) : R := back_transform_in_bounds (lo (fst r)) l (row_median m r).
Definition row_rel m lo (r : X * R) : R := (snd r - row_median m r) / (row_median m r - row_low m lo r).
Definition row_above m lo (r : X * R) : bool := Rltb 0 (row_rel m lo r).
Lemma chain_fit_rows : forall rs : list (X * R),
  chain_fit em el eh bnd l u (map fst rs) (map snd rs) =
  let m := em (map fst rs) (map (fun r => target_median (snd r)) rs) in
  let below := filter (row_below m) rs in
  let lo := el (map fst below) (map (fun r => transform_from_bounds (snd r / row_median m r) (l / row_median m r) 1) below) in
  let over := filter (row_above m lo) rs in
  match bnd with
  | SemiBound => Some (m, lo, eh (map fst over) (map (fun r => transform_from_semibound_lower (row_rel m lo r) 0) over))
  | Bound => if Nat.eqb (length over) (length rs)
             then Some (m, lo, eh (map fst over) (map2 (fun r up => transform_from_bounds r 0 up) (map (row_rel m lo) over)
                                    (map (fun r => (u - row_median m r) / (row_median m r - row_low m lo r)) rs)))
             else None
  end.
Proof.
  intro rs. unfold chain_fit. cbv zeta. rewrite map_map. change (map (fun x : X * R => match bnd with SemiBound => transform_from_semibound_lower (snd x) l | Bound => transform_from_bounds (snd x) l u end) rs) with (map (fun r : X * R => target_median (snd r)) rs).
  set (m := em (map fst rs) (map (fun r => target_median (snd r)) rs)).
  rewrite !(map_map fst (fun x => back_median bnd l u (m x))). change (fun x : X * R => back_median bnd l u (m (fst x))) with (row_median m).
  rewrite !(map2_rows Rdiv snd (row_median m)), !map_map. change (fun x : X * R => Rltb (snd x / row_median m x) 1) with (row_below m).
  rewrite !keep_rows, !map2_rows.
  set (below := filter (row_below m) rs).
  set (lo := el (map fst below) (map (fun r => transform_from_bounds (snd r / row_median m r) (l / row_median m r) 1) below)).
  change (fun r : X * R => back_transform_in_bounds (lo (fst r)) l (row_median m r)) with (row_low m lo).
  rewrite ?map2_rows. change (fun r : X * R => (snd r - row_median m r) / (row_median m r - row_low m lo r)) with (row_rel m lo).
  rewrite !map_map. change (fun x : X * R => Rltb 0 (row_rel m lo x)) with (row_above m lo).
  rewrite !keep_rows, !map_length, !map_map. reflexivity.
Qed.
End Chain.

Section RoundTrip.
Context {X : Type}.
Variables (em el eh : estimator (X := X)).
Lemma rows_split : forall (xs : list X) (y : list R), length xs = length y -> exists rs, xs = map fst rs /\ y = map snd rs /\ rs = combine xs y.
Proof.
  intros xs y H. exists (combine xs y). revert y H. induction xs as [|x xs IH]; intros [|v y] H; try discriminate; [now repeat split|].
  cbn. injection H as H. destruct (IH y H) as [E1 [E2 _]]. rewrite <- E1, <- E2. now repeat split.
Qed.

Lemma median_round_trip : forall bnd l u xs y fitted x v, l < u -> length xs = length y -> NoDup xs -> memorises em ->
  chain_fit em el eh bnd l u xs y = Some fitted -> In (x, v) (combine xs y) ->
  l < v -> (bnd = Bound -> v < u) -> qv_median (chain_predict bnd l u fitted x) = v.
Proof.
  intros bnd l u xs y fitted x v Hlu Hlen N M F Hin Hv Hb.
  destruct (rows_split xs y Hlen) as [rs [-> [-> E]]]. rewrite <- E in Hin. rewrite chain_fit_rows in F. cbv zeta in F.
  set (m := em (map fst rs) (map (fun r => target_median bnd l u (snd r)) rs)) in *.
  assert (Em : exists lo hi, fitted = (m, lo, hi)).
  { destruct bnd; [injection F as <-; eauto|]. destruct (Nat.eqb _ _); [|discriminate]. injection F as <-; eauto. }
  destruct Em as [lo [hi ->]]. cbn [chain_predict qv_median]. destruct bnd; cbn [back_median].
  - assert (Z : m x = ln (v - l)).
    { apply (memorised em rs (fun r => target_median SemiBound l u (snd r)) (x, v)); try assumption. cbn. now apply into_s_above. }
    rewrite Z. unfold back_transform_in_semibound_lower. rewrite exp_ln by lra. ring.
  - assert (Z : m x = ln ((v - l) / (u - v))).
    { apply (memorised em rs (fun r => target_median Bound l u (snd r)) (x, v)); try assumption. cbn. apply into_b_between. split; [assumption|now apply Hb]. }
    rewrite Z. apply back_b_odds. split; [assumption|now apply Hb].
Qed.

Lemma low_round_trip : forall bnd l u xs y fitted x v, l < u -> 0 <= l -> length xs = length y -> NoDup xs -> memorises el ->
  chain_fit em el eh bnd l u xs y = Some fitted -> In (x, v) (combine xs y) ->
  l < v -> v < qv_median (chain_predict bnd l u fitted x) -> qv_low (chain_predict bnd l u fitted x) = v.
Proof.
  intros bnd l u xs y fitted x v Hlu H0 Hlen N M F Hin Hv Hm.
  destruct (rows_split xs y Hlen) as [rs [-> [-> E]]]. rewrite <- E in Hin. rewrite chain_fit_rows in F. cbv zeta in F.
  set (m := em (map fst rs) (map (fun r => target_median bnd l u (snd r)) rs)) in *.
  set (below := filter (row_below bnd l u m) rs) in *.
  set (lo := el (map fst below) (map (fun r => transform_from_bounds (snd r / row_median bnd l u m r) (l / row_median bnd l u m r) 1) below)) in *.
  assert (Em : exists hi, fitted = (m, lo, hi)).
  { destruct bnd; [injection F as <-; eauto|]. destruct (Nat.eqb _ _); [|discriminate]. injection F as <-; eauto. }
  destruct Em as [hi ->]. cbn [chain_predict qv_median qv_low] in *. set (pm := back_median bnd l u (m x)) in *.
  assert (PM : 0 < pm) by lra.
  assert (B : In (x, v) below).
  { apply filter_In. split; [assumption|]. unfold row_below. apply Rltb_iff. change (v / pm < 1).
    apply Rmult_lt_reg_r with pm; [assumption|]. unfold Rdiv. rewrite Rmult_assoc, Rinv_l by lra. lra. }
  assert (Z : lo x = ln ((v - l) / (pm - v))).
  { apply (memorised el below (fun r => transform_from_bounds (snd r / row_median bnd l u m r) (l / row_median bnd l u m r) 1) (x, v)); try assumption.
    - now apply nodup_filter_fst.
    - change (into_b (l / pm) 1 (v / pm) = Some (ln ((v - l) / (pm - v)))). rewrite into_b_between.
      + do 2 f_equal. field. split; [lra|]. lra.
      + split; [apply Rmult_lt_compat_r; [now apply Rinv_0_lt_compat|assumption]|].
        apply Rmult_lt_reg_r with pm; [assumption|]. unfold Rdiv. rewrite Rmult_assoc, Rinv_l by lra. lra. }
  rewrite Z. apply back_b_odds. lra.
Qed.

(** With bounds on both sides the fit fails as soon as one target is not above its median. *)
Lemma filter_full : forall {A} (f : A -> bool) rs, length (filter f rs) = length rs -> forall r, In r rs -> f r = true.
Proof.
  intros A f rs. induction rs as [|r rs IH]; intros E r' H; [destruct H|]. cbn in E.
  assert (Le : forall t : list A, (length (filter f t) <= length t)%nat) by (intro t; induction t as [|b t IHt]; cbn; [lia|destruct (f b); cbn; lia]).
  destruct (f r) eqn:Fr; [|specialize (Le rs); lia]. destruct H as [<-|H]; [assumption|]. apply IH; [cbn in E; lia|assumption].
Qed.
Lemma bounded_fit : forall l u xs y fitted x v, l < u -> length xs = length y ->
  chain_fit em el eh Bound l u xs y = Some fitted -> In (x, v) (combine xs y) -> qv_median (chain_predict Bound l u fitted x) < v.
Proof.
  intros l u xs y fitted x v Hlu Hlen F Hin.
  destruct (rows_split xs y Hlen) as [rs [-> [-> E]]]. rewrite <- E in Hin. rewrite chain_fit_rows in F. cbv zeta in F.
  set (m := em (map fst rs) (map (fun r => target_median Bound l u (snd r)) rs)) in *.
  set (below := filter (row_below Bound l u m) rs) in *.
  set (lo := el (map fst below) (map (fun r => transform_from_bounds (snd r / row_median Bound l u m r) (l / row_median Bound l u m r) 1) below)) in *.
  destruct (Nat.eqb _ _) eqn:En; [|discriminate]. apply Nat.eqb_eq in En. injection F as <-.
  pose proof (filter_full _ rs En (x, v) Hin) as A. unfold row_above in A. apply Rltb_iff in A.
  cbn [chain_predict qv_median]. unfold row_rel in A. change (row_median Bound l u m (x, v)) with (back_median Bound l u (m x)) in A.
  set (pm := back_median Bound l u (m x)) in *. cbn [snd] in A.
  assert (P : row_low Bound l u m lo (x, v) < pm).
  { unfold row_low. cbn [fst]. change (row_median Bound l u m (x, v)) with pm. apply (back_b_between l pm).
    unfold pm. cbn [back_median]. apply (back_b_between l u); assumption. }
  destruct (Rlt_or_le pm v) as [|G]; [assumption|exfalso].
  assert ((v - pm) / (pm - row_low Bound l u m lo (x, v)) <= 0); [|lra].
  apply Rmult_le_reg_r with (pm - row_low Bound l u m lo (x, v)); [lra|]. unfold Rdiv. rewrite Rmult_assoc, Rinv_l by lra. lra.
Qed.
End RoundTrip.

(** With the lower bound only, the upper value is not reproduced. *)
Fixpoint lookup (xs : list nat) (ts : list (option R)) (x : nat) : R :=
  match xs, ts with
  | a :: xs, t :: ts => if Nat.eqb a x then match t with Some z => z | None => 0 end else lookup xs ts x
  | _, _ => 0
  end.
Lemma lookup_memorises : memorises lookup.
Proof.
  intros xs. induction xs as [|a xs IH]; intros [|t ts] x z N Hl H; try contradiction. destruct H as [H|H]; cbn.
  - injection H as -> ->. now rewrite Nat.eqb_refl.
  - inversion N as [|? ? N1 N2]; subst. destruct (Nat.eqb a x) eqn:E.
    + apply Nat.eqb_eq in E; subst. exfalso. apply N1. now apply in_combine_l in H.
    + apply IH; [assumption|now injection Hl|assumption].
Qed.
Lemma upper_wrong : exists fitted, chain_fit (fun _ _ _ => 0) (fun _ _ _ => 0) lookup SemiBound 0 1 [0%nat; 1%nat] [1 / 2; 3] = Some fitted /\
  qv_median (chain_predict SemiBound 0 1 fitted 1%nat) = 1 /\ qv_high (chain_predict SemiBound 0 1 fitted 1%nat) = 5.
Proof.
  assert (PM : back_median SemiBound 0 1 0 = 1) by (cbn; unfold back_transform_in_semibound_lower; rewrite exp_0; ring).
  assert (PL : back_transform_in_bounds 0 0 1 = 1 / 2) by (unfold back_transform_in_bounds; rewrite Ropp_0, exp_0; field).
  unfold chain_fit. cbn [map map2]. rewrite PM, PL.
  eexists. split; [reflexivity|]. cbn [chain_predict qv_median qv_high]. rewrite PM. split; [reflexivity|].
  rewrite (proj2 (Rltb_false 0 ((1 / 2 - 1) / (1 - 1 / 2)))) by lra. rewrite (proj2 (Rltb_iff 0 ((3 - 1) / (1 - 1 / 2)))) by lra.
  unfold keep. cbn [combine filter map fst snd lookup Nat.eqb].
  change (transform_from_semibound_lower ((3 - 1) / (1 - 1 / 2)) 0) with (into_s 0 ((3 - 1) / (1 - 1 / 2))). rewrite into_s_above by lra.
  unfold back_transform_in_semibound_lower. rewrite exp_ln by lra. lra.
Qed.

(** Arrays of samples. *)
Lemma outer_entry : forall {D A} (f : D -> R -> A) ds xs i j d x row, nth_error xs i = Some x -> nth_error ds j = Some d ->
  nth_error (apply_outer f ds xs) i = Some row -> nth_error row j = Some (f d x).
Proof.
  intros D A f ds xs i j d x row Hx Hd Hr. unfold apply_outer in Hr. rewrite nth_error_map, Hx in Hr. cbn in Hr. injection Hr as <-.
  now rewrite nth_error_map, Hd.
Qed.
Lemma inner_entry : forall {D A} (f : D -> R -> A) ds xs i d x, nth_error xs i = Some x -> nth_error ds i = Some d ->
  nth_error (apply_inner f ds xs) i = Some (f d x).
Proof.
  intros D A f ds. unfold apply_inner. induction ds as [|d0 ds IH]; intros [|x0 xs] [|i] d x Hx Hd; try discriminate; cbn in *.
  - congruence.
  - now apply IH.
Qed.
Lemma samples_checked : forall {D} (fit1 : triplet -> D) ts,
  fit_samples fit1 ts = None <-> exists t, In t ts /\ ~ (qv_low t <= qv_median t <= qv_high t).
Proof.
  intros D fit1 ts. unfold fit_samples. destruct (forallb monotonic ts) eqn:E.
  - split; [discriminate|]. intros [t [Ht Hn]]. exfalso. apply Hn. rewrite forallb_forall in E. specialize (E t Ht).
    unfold monotonic in E. apply andb_prop in E as [E1 E2]. apply negb_true_iff in E1, E2. apply Rltb_false in E1, E2. lra.
  - split; [intros _|reflexivity]. induction ts as [|t ts IH]; [discriminate|]. cbn in E. destruct (monotonic t) eqn:M.
    + destruct (IH E) as [t' [H1 H2]]. exists t'. split; [now right|assumption].
    + exists t. split; [now left|]. intro H. unfold monotonic in M. rewrite !(proj2 (Rltb_false _ _)) in M by lra. discriminate.
Qed.

Lemma ex_triplet : let t := {| qv_low := 1; qv_median := 2; qv_high := 5 |} in
  ordered t /\ 0 < qv_low t /\ qv_high t < 6 /\ qv_low t + qv_high t <> 2 * qv_median t /\ (qv_low t - 0) * (qv_high t - 0) <> (qv_median t - 0) ^ 2 /\
  (qv_low t - 0) / (6 - qv_low t) * ((qv_high t - 0) / (6 - qv_high t)) <> ((qv_median t - 0) / (6 - qv_median t)) ^ 2 /\
  internal logistic 0 6 (qv_low t) + internal logistic 0 6 (qv_high t) <> 2 * internal logistic 0 6 (qv_median t).
Proof.
  cbn [qv_low qv_median qv_high]. unfold ordered; cbn [qv_low qv_median qv_high]. repeat split; try lra.
  unfold internal, logistic; cbn [d_ppf]. intro E.
  replace ((1 - 0) / (6 - 0) / (1 - (1 - 0) / (6 - 0))) with (1 / 5) in E by field.
  replace ((5 - 0) / (6 - 0) / (1 - (5 - 0) / (6 - 0))) with 5 in E by field.
  replace ((2 - 0) / (6 - 0) / (1 - (2 - 0) / (6 - 0))) with (1 / 2) in E by field.
  replace (2 * ln (1 / 2)) with (ln (1 / 2) + ln (1 / 2)) in E by ring.
  rewrite <- !ln_mult in E by lra. apply ln_inv in E; lra.
Qed.
Lemma symmetric_s : exists t l, ordered t /\ l < qv_low t /\ forall phi alpha p, ppf_s_opt phi (fit_s phi alpha t l) p = None.
Proof.
  exists {| qv_low := 1; qv_median := 2; qv_high := 4 |}, 0. unfold ordered; cbn [qv_low qv_median qv_high]. split; [lra|split; [lra|]].
  intros phi alpha p. rewrite semibounded_symmetric; [reflexivity| | |]; unfold ordered; cbn [qv_low qv_median qv_high]; lra.
Qed.
Lemma symmetric_b : exists t l u, ordered t /\ l < qv_low t /\ qv_high t < u /\
  forall phi alpha p, base_distribution phi -> ppf_b_opt phi (fit_b phi alpha t l u) p = None.
Proof.
  exists {| qv_low := 1 / 4; qv_median := 1 / 2; qv_high := 3 / 4 |}, 0, 1. unfold ordered; cbn [qv_low qv_median qv_high]. split; [lra|split; [lra|split; [lra|]]].
  intros phi alpha p BD. rewrite bounded_symmetric; [reflexivity|assumption| | | |]; unfold ordered; cbn [qv_low qv_median qv_high]; try lra.
  unfold internal. replace ((1 / 4 - 0) / (1 - 0)) with (1 / 4) by field. replace ((3 / 4 - 0) / (1 - 0)) with (1 - 1 / 4) by field.
  replace ((1 / 2 - 0) / (1 - 0)) with (1 / 2) by field. rewrite (symmetric phi BD) by lra. rewrite (ppf_half phi BD). ring.
Qed.
Lemma symmetric_u : exists t, ordered t /\ forall d alpha, base_distribution d -> 0 < alpha < 1 / 2 ->
  ~ interpolates alpha t (ppf_extended d alpha back_u (fit_extended into_u t)) (cdf_extended d alpha into_u (fit_extended into_u t)) everywhere.
Proof.
  exists {| qv_low := 1; qv_median := 2; qv_high := 3 |}. assert (O : ordered {| qv_low := 1; qv_median := 2; qv_high := 3 |}) by (unfold ordered; cbn; lra). split; [exact O|].
  intros d alpha BD HA I. destruct (extended_symmetric d alpha BD HA _ O) as [v [w [E1 [L1 _]]]]; [cbn; lra|].
  destruct I as [I _]. rewrite I in E1. injection E1 as E1. cbn in E1, L1. lra.
Qed.
Lemma upper_refuted : exists (em el eh : estimator (X := nat)) xs y fitted, memorises eh /\ NoDup xs /\
  chain_fit em el eh SemiBound 0 1 xs y = Some fitted /\ In (1%nat, 3) (combine xs y) /\
  qv_median (chain_predict SemiBound 0 1 fitted 1%nat) = 1 /\ qv_high (chain_predict SemiBound 0 1 fitted 1%nat) = 5.
Proof.
  destruct upper_wrong as [fitted [E1 [E2 E3]]]. exists (fun _ _ _ => 0), (fun _ _ _ => 0), lookup, [0%nat; 1%nat], [1 / 2; 3], fitted.
  split; [exact lookup_memorises|split; [|split; [exact E1|split; [|now split]]]].
  - constructor; [cbn; lia|]. constructor; [cbn; tauto|constructor].
  - cbn. now right; left.
Qed.

Lemma at_bound : exists t l, l <= qv_low t /\ ordered t /\ forall d alpha, base_distribution d -> 0 < alpha < 1 / 2 ->
  exists v, ppf_extended d alpha (back_s l) (fit_extended (into_s l) t) alpha = Some v /\ v <> qv_low t.
Proof.
  exists {| qv_low := 0; qv_median := 1; qv_high := 2 |}, 0. unfold ordered; cbn [qv_low qv_median qv_high]. split; [lra|split; [lra|]].
  intros d a BD HA. exists tiny. split; [now apply extended_at_bound|]. pose proof tiny_pos. lra.
Qed.
Lemma decreasing_cdf : exists t l, l < qv_low t /\ ordered t /\ forall d alpha, base_distribution d -> 0 < alpha < 1 / 2 ->
  exists v p q, l < v /\ cdf_extended d alpha (into_s l) (fit_extended (into_s l) t) l = Some p /\
    cdf_extended d alpha (into_s l) (fit_extended (into_s l) t) v = Some q /\ q < p.
Proof.
  destruct ex_triplet as [O [P [_ [_ [S _]]]]].
  exists {| qv_low := 1; qv_median := 2; qv_high := 5 |}, 0. split; [exact P|split; [exact O|]].
  intros d a BD HA. apply extended_cdf_decreasing; try assumption.
Qed.
Lemma below_refuted : exists t l v, l < qv_low t /\ ordered t /\ v < l /\ forall phi alpha, cdf_s_opt phi (fit_s phi alpha t l) v = None.
Proof.
  destruct ex_triplet as [O [P _]].
  exists {| qv_low := 1; qv_median := 2; qv_high := 5 |}, 0, (-1). split; [exact P|split; [exact O|split; [lra|]]].
  intros phi a. apply cdf_below. lra.
Qed.
Lemma bounded_fit_fails : exists (em el eh : estimator (X := nat)) xs y, length xs = length y /\
  (forall v, In v y -> 0 < v < 1) /\ chain_fit em el eh Bound 0 1 xs y = None.
Proof.
  exists (fun _ _ _ => 0), (fun _ _ _ => 0), (fun _ _ _ => 0), [0%nat; 1%nat; 2%nat], [1 / 4; 3 / 4; 3 / 4].
  split; [reflexivity|split].
  - intros v H. cbn in H. destruct H as [<-|[<-|[<-|[]]]]; lra.
  - destruct (chain_fit _ _ _ Bound 0 1 _ _) eqn:E; [exfalso|reflexivity].
    assert (In (0%nat, 1 / 4) (combine [0%nat; 1%nat; 2%nat] [1 / 4; 3 / 4; 3 / 4])) as I by now left.
    pose proof (bounded_fit (fun _ _ _ => 0) (fun _ _ _ => 0) (fun _ _ _ => 0) 0 1 [0%nat; 1%nat; 2%nat] [1 / 4; 3 / 4; 3 / 4] p 0%nat (1 / 4) ltac:(lra) eq_refl E I) as H.
    assert (qv_median (chain_predict Bound 0 1 p 0%nat) = 1 / 2); [|lra].
    pose proof (chain_fit_rows (fun _ _ _ => 0) (fun _ _ _ => 0) (fun _ _ _ => 0) Bound 0 1 [(0%nat, 1 / 4); (1%nat, 3 / 4); (2%nat, 3 / 4)]) as F.
    cbn [map fst snd] in F. rewrite E in F. cbv zeta in F. clear E. rename F into E. destruct (Nat.eqb _ _); [|discriminate]. injection E as ->. cbn [chain_predict qv_median back_median].
    unfold back_transform_in_bounds. rewrite Ropp_0, exp_0. field.
Qed.

(** ** the cdf at the bounds *)
Lemma ends_s : forall phi alpha t l, fit_s phi alpha t l <> None -> cdf_s_opt phi (fit_s phi alpha t l) l = Some 0.
Proof.
  intros phi alpha t l H. destruct (fit_s phi alpha t l) as [q|] eqn:F; [|congruence]. cbn [cdf_s_opt]. unfold cdf_s.
  assert (E : s_l q = l).
  { unfold fit_s in F. cbv zeta in F. destruct (positive _ && positive _ && positive _); [|discriminate].
    destruct (_ || _); [discriminate|]. destruct (Reqb _ 0); [discriminate|]. injection F as <-. reflexivity. }
  rewrite E, (proj2 (Rltb_false l l)) by lra. rewrite (proj2 (Reqb_iff l l)) by reflexivity. reflexivity.
Qed.
Lemma ends_b : forall phi alpha t l u, fit_b phi alpha t l u <> None ->
  cdf_b_opt phi (fit_b phi alpha t l u) l = Some 0 /\ cdf_b_opt phi (fit_b phi alpha t l u) u = Some 1.
Proof.
  intros phi alpha t l u H. destruct (fit_b phi alpha t l u) as [q|] eqn:F; [|congruence]. cbn [cdf_b_opt]. unfold cdf_b.
  assert (E : b_l q = l /\ b_u q = u /\ l < u).
  { unfold fit_b in F. cbv zeta in F. destruct (inside l u (qv_low t)) eqn:I; [|discriminate]. cbn [andb] in F.
    destruct (inside l u (qv_median t) && inside l u (qv_high t)); [|discriminate].
    destruct (_ || _); [discriminate|]. destruct (Reqb _ 0); [discriminate|]. injection F as <-.
    unfold inside in I. apply andb_true_iff in I. destruct I as [I1 I2]. apply Rltb_iff in I1, I2.
    repeat split; try reflexivity. lra. }
  destruct E as (-> & -> & L). rewrite !(proj2 (Rltb_false _ _)) by lra. cbn [orb].
  rewrite (proj2 (Reqb_iff l l)), (proj2 (Reqb_iff u u)), (proj2 (Reqb_false_iff u l)) by lra. split; reflexivity.
Qed.
