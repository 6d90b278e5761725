(** Facts about root finding, the Newton step and price predictions. *)
From Coq Require Import String List Bool Reals Lra Lia QArith Qreals.
From Verif.Model Require Import Num Train SmootherChoice Estimators Price.
From Verif.Spec Require Import PriceSpec.
From Verif.Proofs Require Import TrainFacts TrainExamples LinkFacts OrthoFacts.
Import ListNotations.
Local Open Scope R_scope.

Lemma nth_map2 : forall {A B C} (f : A -> B -> C) a b i x y, nth_error a i = Some x -> nth_error b i = Some y ->
  nth_error (map2 f a b) i = Some (f x y).
Proof.
  intros A B C f a. induction a as [|u a IH]; intros [|v b] [|i] x y Ha Hb; try discriminate; cbn in *; [congruence|now apply IH].
Qed.
Lemma nth_map2_inv : forall {A B C} (f : A -> B -> C) a b i z, nth_error (map2 f a b) i = Some z ->
  exists x y, nth_error a i = Some x /\ nth_error b i = Some y /\ z = f x y.
Proof.
  intros A B C f a. induction a as [|u a IH]; intros [|v b] [|i] z H; try discriminate; cbn in *.
  - injection H as <-. now exists u, v.
  - now apply IH.
Qed.
Lemma len_map2 : forall {A B C} (f : A -> B -> C) a b, length a = length b -> length (map2 f a b) = length a.
Proof. intros A B C f a. induction a as [|u a IH]; intros [|v b] H; try discriminate; cbn in *; [reflexivity|f_equal; apply IH; lia]. Qed.
Lemma nth_some : forall {A} (l : list A) i, (i < length l)%nat -> exists x, nth_error l i = Some x.
Proof. intros A l i H. destruct (nth_error l i) eqn:E; [eauto|]. apply nth_error_None in E. lia. Qed.

Lemma Forall2_length : forall {A B} (P : A -> B -> Prop) a b, Forall2 P a b -> length a = length b.
Proof. intros A B P a b H. induction H; cbn; congruence. Qed.

(** ** The right bounds *)
Section RightBound.
Variable gradient : list R -> list rfloat.
Hypothesis GL : forall l, length (gradient l) = length l.
Lemma right_bound_length : forall m x valid, length valid = length x -> length (set_right_bound gradient m x valid) = length x.
Proof.
  intros m. induction m as [|m IH]; intros x valid H; cbn [set_right_bound]; [reflexivity|]. cbv zeta.
  destruct (existsb _ _); [|reflexivity].
  assert (E : length (map2 andb valid (map negative (gradient x))) = length x).
  { rewrite len_map2; [assumption|]. rewrite map_length, GL. assumption. }
  rewrite IH; rewrite len_map2; lia.
Qed.
Lemma right_bound_scale : forall m x valid i v w, length valid = length x ->
  nth_error x i = Some v -> nth_error (set_right_bound gradient m x valid) i = Some w ->
  exists k, (k <= m)%nat /\ w = v * 2 ^ k.
Proof.
  intros m. induction m as [|m IH]; intros x valid i v w Hl Hx Hw; cbn [set_right_bound] in Hw; cbv zeta in Hw.
  - exists 0%nat. split; [lia|]. cbn. rewrite Hx in Hw. injection Hw as <-. ring.
  - destruct (existsb _ _).
    + set (index := map2 andb valid (map negative (gradient x))) in *.
      assert (E : length index = length x). { unfold index. rewrite len_map2; [assumption|]. rewrite map_length, GL. assumption. }
      assert (Hi : (i < length index)%nat) by (rewrite E; apply nth_error_Some; congruence).
      destruct (nth_some index i Hi) as [b Hb].
      assert (L2 : length valid = length (map2 (fun (b0 : bool) v0 => if b0 then v0 * 2 else v0) index x)) by (rewrite len_map2; lia).
      destruct (IH _ valid i (if b then v * 2 else v) w L2 (nth_map2 _ _ _ _ _ _ Hb Hx) Hw) as [k [K1 K2]].
      destruct b; [exists (S k); cbn; split; [lia|subst; ring]|exists k; split; [lia|assumption]].
    + exists 0%nat. split; [lia|]. cbn. rewrite Hx in Hw. injection Hw as <-. ring.
Qed.
End RightBound.

(** ** The loop *)
Section Loop.
Variable step : list R -> list step_result.
Hypothesis SL : forall l, length (step l) = length l.

Lemma loop_lengths : forall n eps bins hs bins' hs' calls, bisect_loop step n eps bins hs = (bins', hs', calls) ->
  length bins' = length bins /\ (length calls <= n)%nat /\ (forall l, In l calls -> length l = length bins).
Proof.
  intros n. induction n as [|n IH]; intros eps bins hs bins' hs' calls H; cbn [bisect_loop] in H; cbv zeta in H.
  - injection H as <- <- <-. split; [reflexivity|split; [cbn; lia|intros l []]].
  - assert (E : length (map2 check_valid bins (step (map b_val bins))) = length bins) by (apply len_map2; rewrite SL, map_length; reflexivity).
    destruct (forallb _ _).
    + injection H as <- <- <-. split; [exact E|split; [cbn; lia|]]. intros l [<-|[]]. apply map_length.
    + destruct (bisect_loop step n eps _ _) as [[b h] c] eqn:EL. injection H as <- <- <-.
      destruct (IH _ _ _ _ _ _ EL) as [I1 [I2 I3]]. rewrite len_map2, E in I1, I3 by (rewrite E, SL, map_length; reflexivity).
      split; [exact I1|split; [cbn; lia|]]. intros l [<-|Hl]; [apply map_length|now apply I3].
Qed.

(** A property of the state of bin [i] kept by every round. *)
Lemma loop_track : forall (P : bin -> Prop) i,
  (forall l b s, nth_error (step l) i = Some s -> P b -> P (check_valid b s) /\ P (update_bin (check_valid b s) s)) ->
  forall n eps bins hs bins' hs' calls b, bisect_loop step n eps bins hs = (bins', hs', calls) -> nth_error bins i = Some b -> P b ->
  (exists b', nth_error bins' i = Some b' /\ P b') /\ (forall l, In l calls -> exists b', nth_error l i = Some (b_val b') /\ P b').
Proof.
  intros P i Hstep n. induction n as [|n IH]; intros eps bins hs bins' hs' calls b H Hb Pb; cbn [bisect_loop] in H; cbv zeta in H.
  - injection H as <- <- <-. split; [exists b; now split|intros l []].
  - assert (Hi : (i < length (step (map b_val bins)))%nat) by (rewrite SL, map_length; apply nth_error_Some; congruence).
    destruct (nth_some _ _ Hi) as [s Hs]. destruct (Hstep _ b s Hs Pb) as [P1 P2].
    assert (N1 : nth_error (map2 check_valid bins (step (map b_val bins))) i = Some (check_valid b s)) by (apply nth_map2; assumption).
    assert (C0 : exists b', nth_error (map b_val bins) i = Some (b_val b') /\ P b') by (exists b; rewrite nth_error_map, Hb; now split).
    destruct (forallb _ _).
    + injection H as <- <- <-. split; [eauto|]. intros l [<-|[]]. exact C0.
    + destruct (bisect_loop step n eps _ _) as [[b2 h2] c2] eqn:EL. injection H as <- <- <-.
      destruct (IH _ _ _ _ _ _ _ EL (nth_map2 update_bin _ _ _ _ _ N1 Hs) P2) as [I1 I2].
      split; [exact I1|]. intros l [<-|Hl]; [exact C0|now apply I2].
Qed.

(** The value stays in the bracket, or is the one of a bin without finite results. *)
Definition in_bracket (lo hi : R) (b : bin) : Prop :=
  lo <= b_xl b /\ b_xl b <= b_xr b /\ b_xr b <= hi /\ (b_xl b <= b_val b <= b_xr b \/ b_valid b = false /\ b_val b = 1).
Lemma bracket_step : forall lo hi b s, in_bracket lo hi b -> in_bracket lo hi (check_valid b s) /\ in_bracket lo hi (update_bin (check_valid b s) s).
Proof.
  intros lo hi b s [H1 [H2 [H3 H4]]].
  assert (P : in_bracket lo hi (check_valid b s)).
  { unfold in_bracket, check_valid; cbn. split; [assumption|split; [assumption|split; [assumption|]]].
    destruct H4 as [H4|[H4 H5]]; [now left|right]. rewrite H4. now split. }
  split; [exact P|]. destruct P as [P1 [P2 [P3 P4]]]. set (c := check_valid b s) in *. unfold update_bin.
  destruct (b_valid c) eqn:V.
  - destruct P4 as [P4|[P4 _]]; [|congruence]. unfold in_bracket; cbn [b_xl b_xr b_val b_valid].
    destruct (Rltb (value (jac s)) 0).
    + split; [lra|split; [lra|split; [lra|left]]].
      destruct (Rltb (b_xr c) (value (new_l s))) eqn:E1; cbn [orb]; [lra|].
      destruct (Rltb (value (new_l s)) (b_val c)) eqn:E2; [lra|]. apply Rltb_false in E1, E2. lra.
    + split; [lra|split; [lra|split; [lra|left]]].
      destruct (Rltb (b_val c) (value (new_l s))) eqn:E1; cbn [orb]; [lra|].
      destruct (Rltb (value (new_l s)) (b_xl c)) eqn:E2; [lra|]. apply Rltb_false in E1, E2. lra.
  - unfold in_bracket; cbn. split; [assumption|split; [assumption|split; [assumption|right; now split]]].
Qed.

(** No later value lies on the far side of an earlier one. *)
Definition tight (lo hi : R) (b : bin) : Prop :=
  b_valid b = true /\ lo <= b_xl b /\ b_xl b <= b_val b <= b_xr b /\ b_xr b <= hi.
Lemma tight_step : forall lo hi b s, all_finite s -> tight lo hi b -> tight lo hi (check_valid b s) /\ tight lo hi (update_bin (check_valid b s) s).
Proof.
  intros lo hi b s [l [j [h ->]]] [H1 [H2 [H3 H4]]].
  assert (B : in_bracket lo hi b). { unfold in_bracket. split; [lra|split; [lra|split; [lra|left; lra]]]. }
  destruct (bracket_step lo hi b {| new_l := RFin l; jac := RFin j; hess := RFin h |} B) as [B1 B2].
  assert (V : b_valid (check_valid b {| new_l := RFin l; jac := RFin j; hess := RFin h |}) = true) by (cbn; now rewrite H1).
  assert (V2 : b_valid (update_bin (check_valid b {| new_l := RFin l; jac := RFin j; hess := RFin h |}) {| new_l := RFin l; jac := RFin j; hess := RFin h |}) = true)
    by (unfold update_bin; now rewrite V).
  split; unfold tight.
  - destruct B1 as [C1 [C2 [C3 [C4|[C4 _]]]]]; [|congruence]. rewrite V. repeat split; lra.
  - destruct B2 as [C1 [C2 [C3 [C4|[C4 _]]]]]; [|congruence]. rewrite V2. repeat split; lra.
Qed.
Lemma tight_update : forall lo hi b s j, all_finite s -> jac s = RFin j -> tight lo hi b ->
  tight (if Rltb j 0 then b_val b else lo) (if Rltb j 0 then hi else b_val b) (update_bin (check_valid b s) s).
Proof.
  intros lo hi b s j F Ej T.
  destruct (tight_step lo hi b s F T) as [_ [U1 [U2 [U3 U4]]]]. destruct F as [l [j' [h ->]]]. cbn in Ej. injection Ej as ->.
  destruct T as [T1 [T2 [T3 T4]]]. unfold tight. split; [assumption|].
  revert U2 U3 U4. unfold update_bin, check_valid. cbn [b_valid b_xl b_xr b_val jac hess new_l is_finite andb value]. rewrite T1. cbn [andb b_xl b_xr b_val].
  destruct (Rltb j 0); intros; repeat split; lra.
Qed.
Lemma loop_progress : forall i, (forall l s, nth_error (step l) i = Some s -> all_finite s) ->
  forall n eps bins hs bins' hs' calls b lo hi, bisect_loop step n eps bins hs = (bins', hs', calls) -> nth_error bins i = Some b -> tight lo hi b ->
  forall pre l post s j v l' w, calls = pre ++ l :: post -> nth_error (step l) i = Some s -> jac s = RFin j -> nth_error l i = Some v ->
    In l' (post ++ [map b_val bins']) -> nth_error l' i = Some w -> (j < 0 -> v <= w) /\ (0 <= j -> w <= v).
Proof.
  intros i Fin n. induction n as [|n IH]; intros eps bins hs bins' hs' calls b lo hi H Hb T pre l post s j v l' w E Hs Hj Hv Hl' Hw; cbn [bisect_loop] in H; cbv zeta in H.
  - injection H as <- <- <-. destruct pre; discriminate.
  - assert (Hi : (i < length (step (map b_val bins)))%nat) by (rewrite SL, map_length; apply nth_error_Some; congruence).
    destruct (nth_some _ _ Hi) as [s0 Hs0].
    assert (N1 : nth_error (map2 check_valid bins (step (map b_val bins))) i = Some (check_valid b s0)) by (apply nth_map2; assumption).
    destruct (forallb _ _).
    + injection H as <- <- <-. destruct pre as [|p pre]; [|destruct pre; discriminate]. injection E as <- <-.
      cbn in Hl'. destruct Hl' as [<-|[]]. rewrite nth_error_map, Hb in Hv. injection Hv as <-.
      rewrite nth_error_map, N1 in Hw. injection Hw as <-. cbn. lra.
    + destruct (bisect_loop step n eps _ _) as [[b2 h2] c2] eqn:EL. injection H as <- <- <-.
      pose proof (nth_map2 update_bin _ _ _ _ _ N1 Hs0) as N2.
      destruct pre as [|p pre].
      * injection E as <- <-. rewrite Hs0 in Hs. injection Hs as <-. rewrite nth_error_map, Hb in Hv. injection Hv as <-.
        pose proof (tight_update lo hi b s0 j (Fin _ _ Hs0) Hj T) as T2.
        destruct (loop_track (tight (if Rltb j 0 then b_val b else lo) (if Rltb j 0 then hi else b_val b)) i
          ltac:(intros l0 b0 s1 H1 H2; apply tight_step; [eapply Fin; eassumption|assumption]) _ _ _ _ _ _ _ _ EL N2 T2) as [[bf [F1 F2]] F3].
        assert (Tw : tight (if Rltb j 0 then b_val b else lo) (if Rltb j 0 then hi else b_val b) bf -> w = b_val bf -> (j < 0 -> b_val b <= w) /\ (0 <= j -> w <= b_val b)).
        { intros [W1 [W2 [W3 W4]]] ->. destruct (Rltb j 0) eqn:Ej; [apply Rltb_iff in Ej|apply Rltb_false in Ej]; split; intro; lra. }
        apply in_app_or in Hl' as [Hl'|[<-|[]]].
        -- destruct (F3 l' Hl') as [b' [G1 G2]]. rewrite G1 in Hw. injection Hw as <-.
           destruct G2 as [W1 [W2 [W3 W4]]]. destruct (Rltb j 0) eqn:Ej; [apply Rltb_iff in Ej|apply Rltb_false in Ej]; split; intro; lra.
        -- rewrite nth_error_map, F1 in Hw. injection Hw as <-. now apply Tw.
      * injection E as _ E. destruct (tight_step lo hi b s0 (Fin _ _ Hs0) T) as [_ T2].
        exact (IH _ _ _ _ _ _ _ lo hi EL N2 T2 pre l post s j v l' w E Hs Hj Hv Hl' Hw).
Qed.

(** The hessians that remain are the ones of the last call, or 1. *)
Lemma loop_hessians : forall n eps bins hs bins' hs' calls, bisect_loop step n eps bins hs = (bins', hs', calls) -> (0 < n)%nat ->
  forall h, In h hs' -> h = RFin 1 \/ exists l s i, In l calls /\ nth_error (step l) i = Some s /\ h = hess s.
Proof.
  intros n. induction n as [|n IH]; intros eps bins hs bins' hs' calls H Hn h Hh; [lia|]. cbn [bisect_loop] in H; cbv zeta in H.
  destruct (forallb _ _).
  - injection H as <- <- <-. right. apply in_map_iff in Hh as [s [<- Hs]]. apply In_nth_error in Hs as [i Hs].
    exists (map b_val bins), s, i. split; [now left|now split].
  - destruct (bisect_loop step n eps _ _) as [[b2 h2] c2] eqn:EL. injection H as <- <- <-.
    destruct n as [|n].
    + cbn in EL. injection EL as <- <- <-. apply In_nth_error in Hh as [i Hh]. apply nth_map2_inv in Hh as [b [s [_ [Hs ->]]]].
      destruct (b_valid b); [|now left]. right. exists (map b_val bins), s, i. split; [now left|now split].
    + destruct (IH _ _ _ _ _ _ EL ltac:(lia) h Hh) as [E|[l [s [i [E1 E2]]]]]; [now left|right]. exists l, s, i. split; [now right|assumption].
Qed.

(** What holds when the iteration stops early. *)
Lemma loop_stops : forall n eps bins hs bins' hs' calls, bisect_loop step n eps bins hs = (bins', hs', calls) ->
  (length calls < n)%nat -> exists pre, calls = pre ++ [map b_val bins'] /\
  forall i b s, nth_error bins' i = Some b -> nth_error (step (map b_val bins')) i = Some s ->
    bin_converged eps b s = true /\ (b_valid b = true -> all_finite s).
Proof.
  intros n. induction n as [|n IH]; intros eps bins hs bins' hs' calls H Hc; [lia|]. cbn [bisect_loop] in H; cbv zeta in H.
  destruct (forallb _ _) eqn:EC.
  - injection H as <- <- <-. exists [].
    assert (EV : map b_val (map2 check_valid bins (step (map b_val bins))) = map b_val bins).
    { assert (LL : length (step (map b_val bins)) = length bins) by (rewrite SL; apply map_length).
      revert LL. generalize (step (map b_val bins)). clear. induction bins as [|b r IHb]; intros [|s res] LL; try discriminate; [reflexivity|].
      cbn. f_equal. apply IHb. now injection LL. }
    rewrite EV. split; [reflexivity|]. intros i b s Hb Hs.
    assert (Hs2 := nth_map2 (bin_converged eps) _ _ _ _ _ Hb Hs). rewrite forallb_forall in EC. specialize (EC _ (nth_error_In _ _ Hs2)). split; [exact EC|].
    intro V. apply nth_map2_inv in Hb as [b0 [s0 [_ [Hs0 ->]]]]. rewrite Hs in Hs0. injection Hs0 as <-. cbn in V.
    destruct s as [ln jn hn]; cbn in V. destruct (b_valid b0); [|discriminate]. destruct jn, hn, ln; try discriminate. now exists r1, r, r0.
  - destruct (bisect_loop step n eps _ _) as [[b2 h2] c2] eqn:EL. injection H as <- <- <-. cbn in Hc.
    destruct (IH _ _ _ _ _ _ EL ltac:(lia)) as [pre [E1 E2]]. exists (map b_val bins :: pre). split; [now rewrite E1|exact E2].
Qed.
End Loop.

(** ** The root finding *)
Lemma existsb_map2_false : forall {A B} (f : A -> B -> bool) a b i x y, existsb (fun b => b) (map2 f a b) = false ->
  nth_error a i = Some x -> nth_error b i = Some y -> f x y = false.
Proof.
  intros A B f a b i x y E Ha Hb. pose proof (nth_map2 f _ _ _ _ _ Ha Hb) as H. destruct (f x y) eqn:F; [|reflexivity].
  assert (existsb (fun b : bool => b) (map2 f a b) = true) by (apply existsb_exists; exists true; split; [now apply nth_error_In in H|reflexivity]). congruence.
Qed.
Lemma nth_combine : forall {A B} (a : list A) (b : list B) i x y, nth_error a i = Some x -> nth_error b i = Some y ->
  nth_error (combine a b) i = Some (x, y).
Proof. intros A B a. induction a as [|u a IH]; intros [|v b] [|i] x y Ha Hb; try discriminate; cbn in *; [congruence|now apply IH]. Qed.
Lemma initial_bin : forall valid x_l x_r start i b lo hi, length valid = length x_l -> length x_r = length x_l ->
  (forall s, start = Some s -> length s = length x_l) ->
  nth_error valid i = Some b -> nth_error x_l i = Some lo -> nth_error x_r i = Some hi -> lo <= hi ->
  exists v, nth_error (initial_bins valid x_l x_r start) i = Some {| b_valid := b; b_xl := lo; b_xr := hi; b_val := v |} /\ lo <= v <= hi.
Proof.
  intros valid x_l x_r start i b lo hi L1 L2 LS Hv Hl Hr Hlo. unfold initial_bins. cbv zeta.
  set (l := match start with None => _ | Some _ => _ end).
  assert (K : exists v, nth_error l i = Some v /\ lo <= v <= hi).
  { assert (M : exists v, nth_error (map2 (fun r l0 => (r + l0) / 2) x_r x_l) i = Some v /\ lo <= v <= hi).
    { exists ((hi + lo) / 2). split; [now apply (nth_map2 (fun r l0 => (r + l0) / 2))|lra]. }
    unfold l. destruct start as [s|]; [|exact M].
    destruct (existsb (fun b0 : bool => b0) (map2 Rltb s x_l)) eqn:E1; [exact M|].
    destruct (existsb (fun b0 : bool => b0) (map2 Rltb x_r s)) eqn:E2; [exact M|]. cbn [orb].
    assert (Hi : (i < length s)%nat) by (rewrite (LS s eq_refl); apply nth_error_Some; congruence).
    destruct (nth_some _ _ Hi) as [v Hs]. exists v. split; [exact Hs|].
    pose proof (existsb_map2_false _ _ _ _ _ _ E1 Hs Hl) as F1. pose proof (existsb_map2_false _ _ _ _ _ _ E2 Hr Hs) as F2.
    apply Rltb_false in F1, F2. lra. }
  destruct K as [v [K1 K2]]. exists v. split; [|exact K2].
  exact (nth_map2 (fun vx rl => {| b_valid := fst vx; b_xl := snd vx; b_xr := fst rl; b_val := snd rl |}) _ _ _ _ _
    (nth_combine _ _ _ _ _ Hv Hl) (nth_combine _ _ _ _ _ Hr K1)).
Qed.

Lemma bisect_terminates : forall gradient step valid x_l x_r epsilon n start, one_per_bin step ->
  exists r, newton_bisect gradient step valid x_l x_r epsilon (S n) start = Some r /\ (length (r_calls r) <= S n)%nat.
Proof.
  intros gradient step valid x_l x_r epsilon n start SL. unfold newton_bisect. cbv zeta.
  destruct (bisect_loop _ _ _ _ _) as [[bins hs] calls] eqn:E. eexists. split; [reflexivity|]. cbn.
  now destruct (loop_lengths step SL _ _ _ _ _ _ _ E) as [_ [H _]].
Qed.

Lemma bisect_run : forall gradient step valid x_l x_r epsilon n start r,
  newton_bisect gradient step valid x_l x_r epsilon n start = Some r ->
  exists bins' hs', bisect_loop step n epsilon (initial_bins valid x_l (set_right_bound gradient 10 x_r valid) start) [] = (bins', hs', r_calls r) /\
    r_l r = map b_val bins' /\ r_variance r = map inverse_hessian hs' /\ r_xr r = set_right_bound gradient 10 x_r valid /\ (0 < n)%nat.
Proof.
  intros gradient step valid x_l x_r epsilon n start r. unfold newton_bisect. set (x := set_right_bound gradient 10 x_r valid). clearbody x. cbv zeta.
  destruct n as [|m]; [discriminate|]. set (k := S m). assert (Hk : (0 < k)%nat) by (unfold k; lia). clearbody k.
  destruct (bisect_loop _ _ _ _ _) as [[bins hs] calls] eqn:E. intro H. injection H as <-. exists bins, hs. cbn [r_calls r_l r_variance r_xr]. tauto.
Qed.

Section Bracket.
Variables (gradient : list R -> list rfloat) (step : list R -> list step_result) (valid : list bool) (x_l x_r : list R)
  (epsilon : R) (n : nat) (start : option (list R)) (r : bisect_result).
Hypothesis GL : one_per_bin gradient.
Hypothesis SL : one_per_bin step.
Hypothesis HB : bracketed x_l x_r.
Hypothesis HV : length valid = length x_l.
Hypothesis HS : forall s, start = Some s -> length s = length x_l.
Hypothesis HR : newton_bisect gradient step valid x_l x_r epsilon n start = Some r.

Lemma bracket_entries : forall i lo hi, nth_error x_l i = Some lo -> nth_error x_r i = Some hi -> lo <= hi /\ 0 <= hi.
Proof.
  revert HB. clear. intro H. induction H; intros [|i] lo hi Hl Hr; try discriminate; cbn in *; [now injection Hl as <-; injection Hr as <-|eauto].
Qed.
Lemma pow2_ge1 : forall k, 1 <= 2 ^ k.
Proof. induction k; cbn; lra. Qed.
Lemma right_ends : forall i hi, nth_error x_r i = Some hi -> exists k, (k <= 10)%nat /\ nth_error (r_xr r) i = Some (hi * 2 ^ k).
Proof.
  intros i hi Hi. assert (L : length x_l = length x_r) by exact (Forall2_length _ _ _ HB).
  destruct (bisect_run _ _ _ _ _ _ _ _ _ HR) as [bins' [hs' [_ [_ [_ [-> _]]]]]].
  assert (Hn : (i < length (set_right_bound gradient 10 x_r valid))%nat).
  { rewrite (right_bound_length gradient GL) by congruence. apply nth_error_Some. congruence. }
  destruct (nth_some _ _ Hn) as [w Hw].
  destruct (right_bound_scale gradient GL 10 x_r valid i hi w ltac:(congruence) Hi Hw) as [k [K1 K2]]. exists k. split; [exact K1|]. rewrite <- K2. exact Hw.
Qed.
(** The state at the start of the loop. *)
Lemma run_of : forall i lo hi b, nth_error valid i = Some b -> nth_error x_l i = Some lo -> nth_error x_r i = Some hi ->
  exists bins hs bins' hs' calls v hi', bisect_loop step n epsilon bins hs = (bins', hs', calls) /\
    nth_error bins i = Some {| b_valid := b; b_xl := lo; b_xr := hi'; b_val := v |} /\ lo <= v <= hi' /\ nth_error (r_xr r) i = Some hi' /\
    r_calls r = calls /\ r_l r = map b_val bins'.
Proof.
  intros i lo hi b Hv Hl Hr. destruct (right_ends i hi Hr) as [k [K1 K2]]. destruct (bracket_entries i lo hi Hl Hr) as [B1 B2].
  assert (L : length x_l = length x_r) by exact (Forall2_length _ _ _ HB).
  destruct (bisect_run _ _ _ _ _ _ _ _ _ HR) as [bins' [hs' [E [E1 [_ [E2 _]]]]]]. rewrite E2 in *.
  assert (Q : lo <= hi * 2 ^ k). { pose proof (pow2_ge1 k). nra. }
  destruct (initial_bin valid x_l (set_right_bound gradient 10 x_r valid) start i b lo (hi * 2 ^ k) HV
    ltac:(rewrite (right_bound_length gradient GL); congruence) HS Hv Hl K2 Q) as [v [V1 V2]].
  do 7 eexists. split; [exact E|split; [exact V1|split; [exact V2|split; [exact K2|split; [reflexivity|exact E1]]]]].
Qed.
Lemma bisect_bracket : forall i lo hi, nth_error x_l i = Some lo -> nth_error x_r i = Some hi ->
  exists k, (k <= 10)%nat /\ nth_error (r_xr r) i = Some (hi * 2 ^ k) /\
  forall l, In l (r_calls r ++ [r_l r]) -> exists v, nth_error l i = Some v /\ (lo <= v <= hi * 2 ^ k \/ v = 1).
Proof.
  intros i lo hi Hl Hr. destruct (right_ends i hi Hr) as [k [K1 K2]]. exists k. split; [exact K1|split; [exact K2|]].
  assert (Hi : (i < length valid)%nat) by (rewrite HV; apply nth_error_Some; congruence).
  destruct (nth_some _ _ Hi) as [b Hb].
  destruct (run_of i lo hi b Hb Hl Hr) as [bins [hs [bins' [hs' [calls [v [hi' [E [E1 [E2 [E3 [E4 E5]]]]]]]]]]]].
  rewrite K2 in E3. injection E3 as E3. subst hi'.
  destruct (loop_track step SL (in_bracket lo (hi * 2 ^ k)) i ltac:(intros; now apply bracket_step) _ _ _ _ _ _ _ _ E E1) as [[bf [F1 F2]] F3].
  { unfold in_bracket; cbn. split; [lra|split; [lra|split; [lra|left; lra]]]. }
  assert (Q : forall b', in_bracket lo (hi * 2 ^ k) b' -> lo <= b_val b' <= hi * 2 ^ k \/ b_val b' = 1).
  { intros b' [I1 [I2 [I3 [I4|[_ I4]]]]]; [left; lra|now right]. }
  intros l Hin. rewrite E4, E5 in Hin. apply in_app_or in Hin as [Hin|[<-|[]]].
  - destruct (F3 l Hin) as [b' [G1 G2]]. exists (b_val b'). split; [exact G1|now apply Q].
  - exists (b_val bf). rewrite nth_error_map, F1. split; [reflexivity|now apply Q].
Qed.
Lemma bisect_progress : forall i, nth_error valid i = Some true -> (forall l s, nth_error (step l) i = Some s -> all_finite s) ->
  forall pre l post s j v l' w, r_calls r = pre ++ l :: post -> nth_error (step l) i = Some s -> jac s = RFin j -> nth_error l i = Some v ->
    In l' (post ++ [r_l r]) -> nth_error l' i = Some w -> (j < 0 -> v <= w) /\ (0 <= j -> w <= v).
Proof.
  intros i Hv Fin pre l post s j v l' w Ec Hs Hj Hvl Hin Hw.
  assert (L : length x_l = length x_r) by exact (Forall2_length _ _ _ HB).
  assert (Hi : (i < length x_l)%nat) by (rewrite <- HV; apply nth_error_Some; congruence).
  destruct (nth_some _ _ Hi) as [lo Hl]. destruct (nth_some x_r i ltac:(lia)) as [hi Hr].
  destruct (run_of i lo hi true Hv Hl Hr) as [bins [hs [bins' [hs' [calls [v0 [hi' [E [E1 [E2 [E3 [E4 E5]]]]]]]]]]]].
  rewrite E4 in Ec. rewrite E5 in Hin.
  refine (loop_progress step SL i Fin _ _ _ _ _ _ _ _ lo hi' E E1 _ pre l post s j v l' w Ec Hs Hj Hvl Hin Hw).
  unfold tight; cbn. repeat split; lra.
Qed.
(** Bins with finite results stay in the bracket. *)
Lemma bisect_finite_bracket : forall i lo hi, nth_error valid i = Some true -> (forall l s, nth_error (step l) i = Some s -> all_finite s) ->
  nth_error x_l i = Some lo -> nth_error (r_xr r) i = Some hi ->
  forall l, In l (r_calls r ++ [r_l r]) -> exists v, nth_error l i = Some v /\ lo <= v <= hi.
Proof.
  intros i lo hi Hv Fin Hl Hh. assert (L : length x_l = length x_r) by exact (Forall2_length _ _ _ HB).
  assert (Hi : (i < length x_l)%nat) by (rewrite <- HV; apply nth_error_Some; congruence).
  destruct (nth_some x_r i ltac:(lia)) as [h0 Hr].
  destruct (run_of i lo h0 true Hv Hl Hr) as [bins [hs [bins' [hs' [calls [v0 [hi' [E [E1 [E2 [E3 [E4 E5]]]]]]]]]]]].
  rewrite Hh in E3. injection E3 as E3. subst hi'.
  destruct (loop_track step SL (tight lo hi) i ltac:(intros l b s H1 H2; apply tight_step; [eapply Fin; eassumption|assumption]) _ _ _ _ _ _ _ _ E E1) as [[bf [F1 F2]] F3].
  { unfold tight; cbn. repeat split; lra. }
  intros l Hin. rewrite E4, E5 in Hin. apply in_app_or in Hin as [Hin|[<-|[]]].
  - destruct (F3 l Hin) as [b' [G1 [G2 [G3 [G4 G5]]]]]. exists (b_val b'). split; [exact G1|lra].
  - exists (b_val bf). rewrite nth_error_map, F1. destruct F2 as [G2 [G3 [G4 G5]]]. split; [reflexivity|lra].
Qed.
End Bracket.

Lemma inverse_positive : forall h, h <> RNaN -> positive_variance (inverse_hessian h).
Proof.
  intros [x| | |] H; cbn; try lra; [|congruence]. destruct (Reqb x 0) eqn:E0; [exact I|]. destruct (Rleb (1 / x) 0) eqn:E1; cbn; [lra|]. now apply Rleb_false in E1.
Qed.
Lemma bisect_variance : forall gradient step valid x_l x_r epsilon n start r,
  newton_bisect gradient step valid x_l x_r epsilon n start = Some r ->
  (forall l s i, In l (r_calls r) -> nth_error (step l) i = Some s -> hess s <> RNaN) ->
  Forall positive_variance (r_variance r).
Proof.
  intros gradient step valid x_l x_r epsilon n start r H HN.
  destruct (bisect_run _ _ _ _ _ _ _ _ _ H) as [bins' [hs' [E [_ [-> [_ Hn]]]]]]. apply Forall_forall. intros v Hv.
  apply in_map_iff in Hv as [h [<- Hh]]. apply inverse_positive.
  destruct (loop_hessians step _ _ _ _ _ _ _ E Hn h Hh) as [->|[l [s [i [E1 [E2 ->]]]]]]; [discriminate|eauto].
Qed.
(** Unfolding of one round, for concrete runs. *)
Lemma bound_stop : forall gradient m x valid, existsb (fun b => b) (map2 andb valid (map negative (gradient x))) = false ->
  set_right_bound gradient (S m) x valid = x.
Proof. intros gradient m x valid H. cbn [set_right_bound]. cbv zeta. now rewrite H. Qed.
Lemma bound_go : forall gradient m x valid index, map2 andb valid (map negative (gradient x)) = index -> existsb (fun b => b) index = true ->
  set_right_bound gradient (S m) x valid = set_right_bound gradient m (map2 (fun (b : bool) v => if b then v * 2 else v) index x) valid.
Proof. intros gradient m x valid index <- H. cbn [set_right_bound]. cbv zeta. now rewrite H. Qed.
Lemma loop_stop : forall step n eps bins hs bins1, map2 check_valid bins (step (map b_val bins)) = bins1 ->
  forallb (fun b => b) (map2 (bin_converged eps) bins1 (step (map b_val bins))) = true ->
  bisect_loop step (S n) eps bins hs = (bins1, map hess (step (map b_val bins)), [map b_val bins]).
Proof. intros step n eps bins hs bins1 <- H. cbn [bisect_loop]. cbv zeta. now rewrite H. Qed.
Lemma loop_go : forall step n eps bins hs bins1 bins' hs' trace, map2 check_valid bins (step (map b_val bins)) = bins1 ->
  forallb (fun b => b) (map2 (bin_converged eps) bins1 (step (map b_val bins))) = false ->
  bisect_loop step n eps (map2 update_bin bins1 (step (map b_val bins)))
    (map2 (fun b r => if b_valid b then hess r else RFin 1) bins1 (step (map b_val bins))) = (bins', hs', trace) ->
  bisect_loop step (S n) eps bins hs = (bins', hs', map b_val bins :: trace).
Proof. intros step n eps bins hs bins1 bins' hs' trace <- H E. cbn [bisect_loop]. cbv zeta. now rewrite H, E. Qed.
Lemma bisect_eq : forall gradient step valid x_l x_r epsilon n start x bins bins' hs' calls, set_right_bound gradient 10 x_r valid = x ->
  initial_bins valid x_l x start = bins -> bisect_loop step (S n) epsilon bins [] = (bins', hs', calls) ->
  newton_bisect gradient step valid x_l x_r epsilon (S n) start =
    Some {| r_l := map b_val bins'; r_variance := map inverse_hessian hs'; r_xl := x_l; r_xr := x; r_calls := calls |}.
Proof. intros gradient step valid x_l x_r epsilon n start x bins bins' hs' calls H1 H2 H3. unfold newton_bisect. rewrite H1. cbv zeta. now rewrite H2, H3. Qed.

Lemma bisect_nan : exists gradient step valid x_l x_r r, one_per_bin gradient /\ one_per_bin step /\ bracketed x_l x_r /\
  newton_bisect gradient step valid x_l x_r (1 / 100) 10 None = Some r /\ r_variance r = [RNaN].
Proof.
  set (g := fun l : list R => map (fun _ => RFin 0) l). set (st := fun l : list R => map (fun _ => {| new_l := RNaN; jac := RNaN; hess := RNaN |}) l).
  exists g, st, [true], [0], [2]. eexists. split; [intro; apply map_length|]. split; [intro; apply map_length|]. split; [repeat constructor; lra|]. split.
  - eapply bisect_eq; [|reflexivity|].
    + apply bound_stop. cbn [g map negative map2 andb existsb orb]. rewrite (proj2 (Rltb_false 0 0)) by lra. reflexivity.
    + apply loop_stop; [reflexivity|]. cbn [st initial_bins map map2 combine fst snd check_valid b_valid b_xl b_xr b_val jac hess new_l is_finite andb bin_converged forallb].
      unfold bin_converged, check_valid. cbn [b_valid b_xl b_xr b_val jac hess new_l is_finite andb value negb]. rewrite orb_true_r. reflexivity.
  - reflexivity.
Qed.

(** ** Where the iteration stops *)
Section Stops.
Variable step : list R -> list step_result.
Hypothesis SL : one_per_bin step.
Definition explained (C : list (list R)) (i : nat) (lo hi : R) (b : bin) : Prop :=
  b_valid b = true /\ (b_xl b = lo \/ seen step C i (fun j => j < 0) (b_xl b)) /\ (b_xr b = hi \/ seen step C i (fun j => 0 <= j) (b_xr b)).
Lemma loop_explained : forall C i lo hi, (forall l s, nth_error (step l) i = Some s -> all_finite s) ->
  forall n eps bins hs bins' hs' calls b, bisect_loop step n eps bins hs = (bins', hs', calls) -> incl calls C ->
  nth_error bins i = Some b -> explained C i lo hi b -> exists b', nth_error bins' i = Some b' /\ explained C i lo hi b'.
Proof.
  intros C i lo hi Fin n. induction n as [|n IH]; intros eps bins hs bins' hs' calls b H HC Hb Pb; cbn [bisect_loop] in H; cbv zeta in H.
  - injection H as <- <- <-. exists b. now split.
  - assert (Hi : (i < length (step (map b_val bins)))%nat) by (rewrite SL, map_length; apply nth_error_Some; congruence).
    destruct (nth_some _ _ Hi) as [s Hs]. destruct (Fin _ _ Hs) as [ln [j [h Es]]].
    assert (N1 : nth_error (map2 check_valid bins (step (map b_val bins))) i = Some (check_valid b s)) by (apply nth_map2; assumption).
    assert (P1 : explained C i lo hi (check_valid b s)). { destruct Pb as [V Pb]. split; [subst s; cbn; now rewrite V|exact Pb]. }
    destruct (forallb _ _).
    + injection H as <- <- <-. eauto.
    + destruct (bisect_loop step n eps _ _) as [[b2 h2] c2] eqn:EL. injection H as <- <- <-.
      assert (InC : In (map b_val bins) C) by (apply HC; now left).
      refine (IH _ _ _ _ _ _ _ EL (fun x Hx => HC x (or_intror Hx)) (nth_map2 update_bin _ _ _ _ _ N1 Hs) _).
      destruct P1 as [V [P2 P3]]. unfold update_bin. rewrite V. unfold explained. cbn [b_valid b_xl b_xr].
      assert (Ev : nth_error (map b_val bins) i = Some (b_val b)) by (rewrite nth_error_map, Hb; reflexivity).
      split; [reflexivity|]. assert (Ejac : value (jac s) = j) by (rewrite Es; reflexivity). rewrite Ejac.
      destruct (Rltb j 0) eqn:Ej; [apply Rltb_iff in Ej|apply Rltb_false in Ej]; (split; [|try exact P3]); try exact P2.
      * right. exists (map b_val bins), s, j. split; [exact InC|split; [exact Ev|split; [exact Hs|split; [now rewrite Es|exact Ej]]]].
      * right. exists (map b_val bins), s, j. split; [exact InC|split; [exact Ev|split; [exact Hs|split; [now rewrite Es|exact Ej]]]].
Qed.
End Stops.

Lemma bisect_stops : forall gradient step valid x_l x_r epsilon n start r, one_per_bin gradient -> one_per_bin step -> bracketed x_l x_r ->
  length valid = length x_l -> (forall s, start = Some s -> length s = length x_l) ->
  newton_bisect gradient step valid x_l x_r epsilon n start = Some r -> (length (r_calls r) < n)%nat ->
  forall i lo hi, nth_error valid i = Some true -> (forall l s, nth_error (step l) i = Some s -> all_finite s) ->
  nth_error x_l i = Some lo -> nth_error (r_xr r) i = Some hi ->
  exists v s j, nth_error (r_l r) i = Some v /\ nth_error (step (r_l r)) i = Some s /\ jac s = RFin j /\
    (Rabs j < epsilon \/
     (exists p, v - epsilon < p <= v /\ (p = lo \/ seen step (r_calls r) i (fun j => j < 0) p)) \/
     (exists p, v <= p < v + epsilon /\ (p = hi \/ seen step (r_calls r) i (fun j => 0 <= j) p))).
Proof.
  intros gradient step valid x_l x_r epsilon n start r GL SL HB HV HS HR Hlt i lo hi Hv Fin Hl Hh.
  assert (L : length x_l = length x_r) by exact (Forall2_length _ _ _ HB).
  assert (Hi : (i < length x_l)%nat) by (rewrite <- HV; apply nth_error_Some; congruence).
  destruct (nth_some x_r i ltac:(lia)) as [h0 Hr].
  destruct (run_of gradient step valid x_l x_r epsilon n start r GL HB HV HS HR i lo h0 true Hv Hl Hr)
    as [bins [hs [bins' [hs' [calls [v0 [hi' [E [E1 [E2 [E3 [E4 E5]]]]]]]]]]]].
  rewrite Hh in E3. injection E3 as E3. subst hi'. rewrite E4 in Hlt.
  destruct (loop_stops step SL _ _ _ _ _ _ _ E Hlt) as [pre [_ ST]].
  destruct (loop_explained step SL calls i lo hi Fin _ _ _ _ _ _ _ _ E (fun x Hx => Hx) E1) as [b [B1 [B2 [B3 B4]]]].
  { unfold explained; cbn. tauto. }
  destruct (loop_track step SL (tight lo hi) i ltac:(intros l b0 s H1 H2; apply tight_step; [eapply Fin; eassumption|assumption]) _ _ _ _ _ _ _ _ E E1) as [[bf [F1 F2]] _].
  { unfold tight; cbn. repeat split; lra. }
  rewrite B1 in F1. injection F1 as <-. destruct F2 as [T1 [T2 [T3 T4]]].
  assert (Hs : (i < length (step (map b_val bins')))%nat) by (rewrite SL, map_length; apply nth_error_Some; congruence).
  destruct (nth_some _ _ Hs) as [s Es]. destruct (Fin _ _ Es) as [ln [j [h Ef]]].
  destruct (ST i b s B1 Es) as [Conv _]. rewrite E4, E5. exists (b_val b), s, j.
  split; [rewrite nth_error_map, B1; reflexivity|]. split; [exact Es|]. split; [now rewrite Ef|].
  unfold bin_converged in Conv. rewrite B2, Ef in Conv. cbn [negb jac value] in Conv. rewrite orb_false_r in Conv.
  apply orb_true_iff in Conv as [Conv|Conv]; [apply orb_true_iff in Conv as [Conv|Conv]|].
  - left. now apply Rltb_iff in Conv.
  - right. left. apply Rltb_iff in Conv. exists (b_xl b). split; [|exact B3]. rewrite Rabs_right in Conv; lra.
  - right. right. apply Rltb_iff in Conv. exists (b_xr b). split; [|exact B4]. rewrite Rabs_right in Conv; lra.
Qed.

(** ** The Newton step *)
Lemma bin_total_rows : forall (f : price_row -> R) rows b,
  bin_total (lex rows) (map f rows) b = sumR (map f (rows_in b rows)).
Proof.
  intros f rows b. unfold lex, rows_in. induction rows as [|r rest IH]; [reflexivity|]. cbn. destruct (Nat.eqb (pr_bin r) b); cbn; rewrite IH; [reflexivity|lra].
Qed.
Lemma bin_count_rows : forall rows b, bin_count rows b = INR (length (rows_in b rows)).
Proof.
  intros rows b. unfold bin_count. rewrite bin_total_rows. induction (rows_in b rows) as [|r t IH]; [reflexivity|]. cbn [map sumR length].
  rewrite S_INR. unfold sumR in *. cbn [fold_right]. rewrite IH. lra.
Qed.
Lemma empty_bin_rows : forall rows b, empty_bin rows b = true <-> rows_in b rows = [].
Proof.
  intros rows b. unfold empty_bin, lex, rows_in. induction rows as [|r t IH]; [now cbn|]. cbn [map existsb filter]. rewrite (Nat.eqb_sym b).
  destruct (Nat.eqb (pr_bin r) b); cbn; [split; discriminate|exact IH].
Qed.
Lemma rows_in_bin : forall rows b r, In r (rows_in b rows) -> pr_bin r = b.
Proof. intros rows b r H. apply filter_In in H as [_ H]. now apply Nat.eqb_eq. Qed.
Lemma derivable_sum : forall {A} (f g : A -> R -> R) x rows, (forall r, In r rows -> derivable_pt_lim (f r) x (g r x)) ->
  derivable_pt_lim (fun l => sumR (map (fun r => f r l) rows)) x (sumR (map (fun r => g r x) rows)).
Proof.
  intros A f g x rows. induction rows as [|r t IH]; intro H; [apply derivable_pt_lim_const|].
  exact (derivable_pt_lim_plus (f r) (fun l => sumR (map (fun r => f r l) t)) x _ _ (H r (or_introl eq_refl)) (IH (fun q Hq => H q (or_intror Hq)))).
Qed.
Lemma derivable_ext : forall f g x d d', (forall t, f t = g t) -> d = d' -> derivable_pt_lim f x d -> derivable_pt_lim g x d'.
Proof. intros f g x d d' E <- H eps He. destruct (H eps He) as [del D]. exists del. intros h Hh Hd. rewrite <- !E. now apply D. Qed.
Lemma derivable_sq : forall f x d, derivable_pt_lim f x d -> derivable_pt_lim (fun t => f t ^ 2) x (2 * d * f x).
Proof.
  intros f x d H. refine (derivable_ext _ _ _ _ _ _ _ (derivable_pt_lim_mult f f x d d H H)).
  - intro t. unfold mult_fct. ring.
  - ring.
Qed.
Lemma derivable_affine : forall a c x, derivable_pt_lim (fun t => a * t + c) x a.
Proof.
  intros a c x. refine (derivable_ext _ _ _ _ _ _ _ (derivable_pt_lim_plus (fun t => a * t) (fun _ => c) x a 0 _ (derivable_pt_lim_const c x))).
  - reflexivity.
  - ring.
  - refine (derivable_ext _ _ _ _ _ _ _ (derivable_pt_lim_scal id a x 1 (derivable_pt_lim_id x))); [reflexivity|ring].
Qed.
Lemma derivable_mu : forall r x, derivable_pt_lim (mu r) x (slope r * mu r x).
Proof.
  intros r x. unfold mu, slope.
  pose proof (derivable_affine (pr_k r * pr_x r) 0 x) as A.
  pose proof (derivable_pt_lim_comp _ exp x _ _ A (derivable_pt_lim_exp _)) as E.
  pose proof (derivable_pt_lim_scal _ (pr_p r) x _ E) as S.
  refine (derivable_ext _ _ _ _ _ _ _ S).
  - intro t. unfold mult_real_fct, comp. f_equal. f_equal. ring.
  - replace (pr_k r * pr_x r * x + 0) with (pr_k r * x * pr_x r) by ring. ring.
Qed.
Lemma derivable_row_error : forall r x, derivable_pt_lim (row_error r) x (jac_data r x).
Proof.
  intros r x. pose proof (derivable_pt_lim_minus (fun _ => pr_y r) (mu r) x _ _ (derivable_pt_lim_const (pr_y r) x) (derivable_mu r x)) as M.
  pose proof (derivable_pt_lim_scal _ (pr_s r) x _ (derivable_sq _ x _ M)) as Q. refine (derivable_ext _ _ _ _ _ _ _ Q).
  - reflexivity.
  - unfold jac_data, minus_fct. ring.
Qed.
Lemma derivable_row_penalty : forall r x, 0 < x ->
  derivable_pt_lim (row_penalty r) x (2 * (pr_k r * (pr_k r * x - pr_prior r) + x - 1 + (pr_lkp r + 2 * ln x) / x)).
Proof.
  intros r x Hx.
  pose proof (derivable_sq _ x _ (derivable_affine (pr_k r) (- pr_prior r) x)) as A1.
  pose proof (derivable_sq _ x _ (derivable_affine 1 (- 1) x)) as A2.
  pose proof (derivable_sq _ x _ (derivable_pt_lim_ln x Hx)) as A3.
  pose proof (derivable_sq _ x _ (derivable_pt_lim_plus ln (fun _ => pr_lkp r) x _ _ (derivable_pt_lim_ln x Hx) (derivable_pt_lim_const (pr_lkp r) x))) as A4.
  refine (derivable_ext _ _ _ _ _ _ _ (derivable_pt_lim_plus _ _ x _ _ (derivable_pt_lim_plus _ _ x _ _ (derivable_pt_lim_plus _ _ x _ _ A1 A2) A3) A4)).
  - intro t. unfold row_penalty, plus_fct. ring.
  - unfold plus_fct. field. lra.
Qed.
Lemma derivable_jac_data : forall r x, derivable_pt_lim (jac_data r) x (hess_data r x).
Proof.
  intros r x. pose proof (derivable_pt_lim_minus (fun _ => pr_y r) (mu r) x _ _ (derivable_pt_lim_const (pr_y r) x) (derivable_mu r x)) as M.
  pose proof (derivable_pt_lim_scal _ (- (2 * slope r * pr_s r)) x _ (derivable_pt_lim_mult (mu r) _ x _ _ (derivable_mu r x) M)) as Q.
  refine (derivable_ext _ _ _ _ _ _ _ Q).
  - intro t. unfold jac_data, mult_real_fct, mult_fct, minus_fct. ring.
  - unfold hess_data, jac_data, minus_fct. ring.
Qed.
Lemma derivable_jac_prior : forall rows var_l r x, 0 < x -> derivable_pt_lim (jac_prior rows var_l r) x (hess_prior rows var_l r x).
Proof.
  intros rows var_l r x Hx. unfold jac_prior, hess_prior. set (c := bin_count rows (pr_bin r)).
  pose proof (derivable_affine (pr_k r * pr_k r + 1) (- pr_k r * pr_prior r - 1) x) as A1.
  assert (N : x <> 0) by lra.
  pose proof (derivable_pt_lim_plus (fun _ => pr_lkp r) _ x _ _ (derivable_pt_lim_const (pr_lkp r) x) (derivable_pt_lim_scal ln 2 x _ (derivable_pt_lim_ln x Hx))) as A2.
  pose proof (derivable_pt_lim_div _ id x _ _ A2 (derivable_pt_lim_id x) N) as A3.
  pose proof (derivable_pt_lim_scal _ (2 / var_l / c) x _ (derivable_pt_lim_plus _ _ x _ _ A1 A3)) as Q.
  refine (derivable_ext _ _ _ _ _ _ _ Q).
  - intro t. unfold mult_real_fct, plus_fct, div_fct, id, Rdiv. ring.
  - unfold plus_fct, mult_real_fct, id, Rsqr, Rdiv. rewrite Rinv_mult. set (iv := / var_l). set (ic := / c). clearbody iv ic. field. lra.
Qed.

Lemma gradient_exact : forall rows var_l b x, 0 < x -> derivable_pt_lim (bin_loss rows var_l b) x (jacobian rows var_l b x).
Proof.
  intros rows var_l b x Hx. unfold bin_loss, jacobian. rewrite bin_total_rows.
  pose proof (derivable_sum row_error jac_data x (rows_in b rows) (fun r _ => derivable_row_error r x)) as A.
  pose proof (derivable_sum row_penalty (fun r t => 2 * (pr_k r * (pr_k r * t - pr_prior r) + t - 1 + (pr_lkp r + 2 * ln t) / t)) x (rows_in b rows)
    (fun r _ => derivable_row_penalty r x Hx)) as B.
  refine (derivable_ext _ _ _ _ _ _ _ (derivable_pt_lim_plus _ _ x _ _ A (derivable_pt_lim_scal _ (/ var_l * / INR (length (rows_in b rows))) x _ B))).
  - intro t. unfold plus_fct, mult_real_fct, Rdiv. ring.
  - rewrite <- bin_count_rows.
    assert (K : forall t, (forall r, In r t -> pr_bin r = b) -> sumR (map (fun r => jac_data r x) t) + / var_l * / bin_count rows b *
      sumR (map (fun r => 2 * (pr_k r * (pr_k r * x - pr_prior r) + x - 1 + (pr_lkp r + 2 * ln x) / x)) t) =
      sumR (map (fun r => jac_data r x + jac_prior rows var_l r x) t)).
    { intro t. induction t as [|r t IH]; intro Hb; [cbn; ring|]. cbn [map]. unfold sumR in *. cbn [fold_right].
      rewrite <- IH by (intros q Hq; apply Hb; now right). unfold jac_prior. rewrite (Hb r (or_introl eq_refl)). unfold Rdiv. ring. }
    apply K. apply rows_in_bin.
Qed.
Lemma curvature_exact : forall rows var_l b x, 0 < x -> derivable_pt_lim (jacobian rows var_l b) x (hessian rows var_l b x).
Proof.
  intros rows var_l b x Hx. unfold hessian. rewrite bin_total_rows.
  refine (derivable_ext _ _ _ _ _ _ eq_refl (derivable_sum (fun r l => jac_data r l + jac_prior rows var_l r l) (fun r l => hess_data r l + hess_prior rows var_l r l) x (rows_in b rows) _)).
  - intro t. unfold jacobian. now rewrite bin_total_rows.
  - intros r _. exact (derivable_pt_lim_plus _ _ x _ _ (derivable_jac_data r x) (derivable_jac_prior rows var_l r x Hx)).
Qed.

Lemma newton_step_per_bin : forall rows var_l, one_per_bin (newton_step rows var_l).
Proof. intros rows var_l l. unfold newton_step. rewrite len_map2; rewrite seq_length; reflexivity. Qed.
Lemma newton_gradient_per_bin : forall rows var_l, one_per_bin (newton_gradient rows var_l).
Proof. intros rows var_l l. unfold newton_gradient. rewrite map_length. apply newton_step_per_bin. Qed.
Lemma nth_seq : forall n a i, (i < n)%nat -> nth_error (seq a n) i = Some (a + i)%nat.
Proof. intros n. induction n as [|n IH]; intros a [|i] H; cbn; try lia; [f_equal; lia|rewrite IH by lia; f_equal; lia]. Qed.
Lemma newton_step_at : forall rows var_l ls b l, nth_error ls b = Some l -> nth_error (newton_step rows var_l ls) b = Some (bin_step rows var_l b l).
Proof.
  intros rows var_l ls b l H. unfold newton_step. apply nth_map2; [|exact H]. rewrite nth_seq; [reflexivity|]. apply nth_error_Some. congruence.
Qed.
Lemma step_exact : forall rows var_l ls b l, nth_error ls b = Some l -> 0 < l -> rows_in b rows <> [] ->
  exists s j h g, nth_error (newton_step rows var_l ls) b = Some s /\ jac s = RFin j /\ hess s = RFin h /\
    derivable_pt_lim (bin_loss rows var_l b) l j /\
    (forall x, 0 < x -> derivable_pt_lim (bin_loss rows var_l b) x (g x)) /\ derivable_pt_lim g l h /\
    (h <> 0 -> new_l s = RFin (l - j / h)) /\ (h = 0 -> new_l s = RNaN).
Proof.
  intros rows var_l ls b l H Hl Hb. rewrite (newton_step_at rows var_l ls b l H). unfold bin_step.
  destruct (empty_bin rows b) eqn:E; [apply empty_bin_rows in E; congruence|]. rewrite (proj2 (Rltb_iff 0 l) Hl). cbv zeta.
  eexists. exists (jacobian rows var_l b l), (hessian rows var_l b l), (jacobian rows var_l b).
  split; [reflexivity|]. cbn [jac hess new_l]. split; [reflexivity|]. split; [reflexivity|]. split; [now apply gradient_exact|].
  split; [intros; now apply gradient_exact|]. split; [now apply curvature_exact|]. split; intro N.
  - now rewrite (proj2 (Reqb_false_iff _ _) N).
  - now rewrite (proj2 (Reqb_iff _ _) N).
Qed.

Lemma exponent_range : forall rows var_l weightsums, exists r, exponent_bins rows var_l weightsums = Some r /\
  (length (r_calls r) <= 10)%nat /\ Forall (fun l => 0 <= l <= 2048) (r_l r) /\ Forall positive_variance (r_variance r).
Proof.
  intros rows var_l ws. unfold exponent_bins.
  destruct (bisect_terminates (newton_gradient rows var_l) (newton_step rows var_l) (map (fun w => Rltb 0 w) ws) (map (fun _ => 0) ws) (map (fun _ => 2) ws)
    (1 / 100) 9 (Some (map (fun _ => 1) ws)) (newton_step_per_bin rows var_l)) as [r [E1 E2]]. exists r. split; [exact E1|split; [exact E2|]].
  assert (B : forall l, In l (r_calls r ++ [r_l r]) -> forall i v, nth_error l i = Some v -> 0 <= v <= 2048).
  { assert (HB : bracketed (map (fun _ => 0) ws) (map (fun _ => 2) ws)). { clear. induction ws; constructor; [lra|assumption]. }
    intros l Hin i v Hv.
    assert (Hi : (i < length ws)%nat).
    { assert (LL : length l = length ws).
      { destruct (bisect_run _ _ _ _ _ _ _ _ _ E1) as [bins' [hs' [E [El [_ [_ _]]]]]].
        destruct (loop_lengths _ (newton_step_per_bin rows var_l) _ _ _ _ _ _ _ E) as [L1 [_ L3]].
        assert (L0 : length (initial_bins (map (fun w => Rltb 0 w) ws) (map (fun _ => 0) ws) (set_right_bound (newton_gradient rows var_l) 10 (map (fun _ => 2) ws) (map (fun w => Rltb 0 w) ws)) (Some (map (fun _ => 1) ws))) = length ws).
        { assert (RL : length (set_right_bound (newton_gradient rows var_l) 10 (map (fun _ : R => 2) ws) (map (fun w => Rltb 0 w) ws)) = length ws)
            by (rewrite (right_bound_length _ (newton_gradient_per_bin rows var_l)); rewrite !map_length; reflexivity).
          unfold initial_bins. cbv zeta. rewrite len_map2; rewrite !combine_length, !map_length; [lia|].
          destruct (_ || _); [rewrite len_map2; rewrite !RL; rewrite ?map_length; lia|rewrite RL, map_length; lia]. }
        apply in_app_or in Hin as [Hin|[<-|[]]]; [rewrite <- L0; now apply L3|rewrite El, map_length, L1; exact L0]. }
      rewrite <- LL. apply nth_error_Some. congruence. }
    assert (Hm : forall c : R, nth_error (map (fun _ => c) ws) i = Some c). { intro c. destruct (nth_some _ _ Hi) as [w Hw]. now rewrite nth_error_map, Hw. }
    assert (HV : length (map (fun w => Rltb 0 w) ws) = length (map (fun _ : R => 0) ws)) by (rewrite !map_length; reflexivity).
    assert (HS : forall s, Some (map (fun _ : R => 1) ws) = Some s -> length s = length (map (fun _ : R => 0) ws)) by (intros s Hs; injection Hs as <-; rewrite !map_length; reflexivity).
    destruct (bisect_bracket (newton_gradient rows var_l) (newton_step rows var_l) (map (fun w => Rltb 0 w) ws) (map (fun _ => 0) ws) (map (fun _ => 2) ws)
      (1 / 100) 10 (Some (map (fun _ => 1) ws)) r (newton_gradient_per_bin rows var_l) (newton_step_per_bin rows var_l) HB HV HS E1 i 0 2 (Hm 0) (Hm 2)) as [k [K1 [_ K2]]].
    destruct (K2 l Hin) as [v' [V1 V2]]. rewrite Hv in V1. injection V1 as <-.
    assert (P : 2 ^ k <= 2 ^ 10) by (apply Rle_pow; [lra|exact K1]). replace (2 ^ 10) with 1024 in P by (cbn; lra). destruct V2 as [V2|V2]; lra. }
  split.
  - apply Forall_forall. intros v Hv. apply In_nth_error in Hv as [i Hv]. apply (B (r_l r)) with (i := i); [apply in_or_app; right; now left|exact Hv].
  - apply (bisect_variance _ _ _ _ _ _ _ _ _ E1). intros l s i Hin Hs.
    assert (Hi : (i < length l)%nat) by (rewrite <- (newton_step_per_bin rows var_l l); apply nth_error_Some; congruence).
    destruct (nth_some _ _ Hi) as [v Hv]. rewrite (newton_step_at rows var_l l i v Hv) in Hs. injection Hs as <-.
    pose proof (B l (in_or_app _ _ _ (or_introl Hin)) i v Hv) as [Hv0 _].
    unfold bin_step. destruct (empty_bin rows i); [discriminate|]. destruct (Rltb 0 v) eqn:E0; [discriminate|]. apply Rltb_false in E0.
    rewrite (proj2 (Reqb_iff v 0)) by lra. discriminate.
Qed.

(** ** Predictions *)
Lemma fold_rows : forall cs r, let r' := fold_left update_row cs r in
  lr_factors r' = lr_factors r + contribution false cs /\ lr_exponents r' = lr_exponents r + contribution true cs /\
  lr_prior_exponents r' = lr_prior_exponents r /\ lr_base r' = lr_base r.
Proof.
  unfold contribution, sumR. intro cs. induction cs as [|[e c] t IH]; intros r; cbv zeta; cbn [fold_left]; [cbn; repeat split; ring|].
  destruct (IH (update_row r (e, c))) as [I1 [I2 [I3 I4]]]. rewrite I1, I2, I3, I4. destruct e; cbn; repeat split; ring.
Qed.
Lemma price_form : forall pp pe x cs, price_predict pp pe x cs = exp (pp + contribution false cs + pe * exp (contribution true cs) * external_base x).
Proof.
  intros pp pe x cs. unfold price_predict, predict_link, exponents. destruct (fold_rows cs (start_row pp pe x)) as [I1 [I2 [I3 I4]]].
  rewrite I1, I2, I3, I4. cbn. f_equal. rewrite Rplus_0_l. ring.
Qed.
Lemma price_missing : forall pp pe x cs, (forall q, x <> Fin q) -> price_predict pp pe x cs = exp (pp + contribution false cs).
Proof. intros pp pe x cs H. rewrite price_form. destruct x; try (cbn; f_equal; ring). congruence. Qed.
Lemma price_decreasing : forall pp pe p q cs, pe < 0 -> (p < q)%Q -> price_predict pp pe (Fin q) cs < price_predict pp pe (Fin p) cs.
Proof.
  intros pp pe p q cs Hp Hq. rewrite !price_form. apply exp_increasing. cbn. apply Qlt_Rlt in Hq. pose proof (exp_pos (contribution true cs)) as P.
  assert (pe * exp (contribution true cs) < 0) by nra. set (e := pe * exp (contribution true cs)) in *. assert (e * (Q2R q - Q2R p) < 0) by nra. lra.
Qed.
Lemma price_increasing : forall pp pe p q cs, 0 < pe -> (p < q)%Q -> price_predict pp pe (Fin p) cs < price_predict pp pe (Fin q) cs.
Proof.
  intros pp pe p q cs Hp Hq. rewrite !price_form. apply exp_increasing. cbn. apply Qlt_Rlt in Hq. pose proof (exp_pos (contribution true cs)) as P.
  assert (0 < pe * exp (contribution true cs)) by nra. set (e := pe * exp (contribution true cs)) in *. assert (0 < e * (Q2R q - Q2R p)) by nra. lra.
Qed.
(** At the external value one the exponents have no effect. *)
Lemma price_at_one : forall pp pe cs, price_predict pp pe (Fin 1) cs = exp (pp + contribution false cs).
Proof. intros pp pe cs. rewrite price_form. cbn. f_equal. unfold Q2R. cbn. lra. Qed.

(** ** Feature groups *)
Lemma ids_of_type : forall {K} t (gs : list (@group_or_id K)), (forall g, In g gs -> of_type t g) ->
  map (fun g => create_feature_id g t) gs = map (fun g => (columns_of g, t)) gs.
Proof. intros K t gs H. apply map_ext_in. intros [c t'|c|c] Hg; cbn; try reflexivity. now rewrite (H _ Hg). Qed.
Lemma groups_accepted : forall {K} (st ex : list (@group_or_id K)), (forall g, In g st -> of_type None g) ->
  (forall g, In g ex -> of_type (Some "external"%string) g) ->
  combine_feature_groups (Some st) (Some ex) =
    Some (map (fun g => (columns_of g, None)) st ++ map (fun g => (columns_of g, Some "external"%string)) ex) /\
  combine_feature_groups (Some st) None = Some (map (fun g => (columns_of g, None)) st).
Proof.
  intros K st ex H1 H2. unfold combine_feature_groups. cbv zeta. rewrite !ids_of_type by assumption.
  assert (E1 : forallb is_standard (map (fun g => (columns_of g, None)) st) = true) by (apply forallb_forall; intros i Hi; apply in_map_iff in Hi as [g [<- _]]; reflexivity).
  assert (E2 : forallb is_external (map (fun g => (columns_of g, Some external_type)) ex) = true) by (apply forallb_forall; intros i Hi; apply in_map_iff in Hi as [g [<- _]]; reflexivity).
  rewrite E1, E2. now split.
Qed.
Lemma groups_rejected : forall {K} (st : list (@group_or_id K)) ex, (exists g, In g st /\ ~ of_type None g) \/
  (exists gs g, ex = Some gs /\ In g gs /\ ~ of_type (Some "external"%string) g) -> combine_feature_groups (Some st) ex = None.
Proof.
  intros K st ex H. unfold combine_feature_groups. cbv zeta.
  assert (S1 : (exists g, In g st /\ ~ of_type None g) -> forallb is_standard (map (fun g => create_feature_id g None) st) = false).
  { intros [g [G1 G2]]. destruct (forallb is_standard (map (fun g => create_feature_id g None) st)) eqn:E; [|reflexivity]. rewrite forallb_forall in E.
    specialize (E _ (in_map (fun g => create_feature_id g None) _ _ G1)). destruct g as [c [t|]|c|c]; cbn in *; try discriminate; exfalso; apply G2; [reflexivity|exact I|exact I]. }
  destruct H as [H|[gs [g [-> [G1 G2]]]]].
  - rewrite (S1 H). destruct ex; reflexivity.
  - destruct (forallb is_external (map (fun g0 => create_feature_id g0 (Some external_type)) gs)) eqn:E; [|now rewrite andb_false_r].
    exfalso. rewrite forallb_forall in E. specialize (E _ (in_map (fun g0 => create_feature_id g0 (Some external_type)) _ _ G1)).
    destruct g as [c [t|]|c|c]; cbn in *; try discriminate; try (apply G2; exact I). apply String.eqb_eq in E. apply G2. now subst.
Qed.

(** ** An example: a gradient with root 3/2, and a bin without weight *)
Definition ex_step (l : list R) : list step_result :=
  map (fun x => {| new_l := RFin (3 / 2); jac := RFin (x - 3 / 2); hess := RFin 1 |}) l.
Definition ex_gradient (l : list R) : list rfloat := map jac (ex_step l).
Lemma ex_bisect : newton_bisect ex_gradient ex_step [true; false] [0; 0] [1 / 2; 2] (1 / 100) 10 None =
  Some {| r_l := [3 / 2; 1]; r_variance := [RFin 1; RFin 1]; r_xl := [0; 0]; r_xr := [2; 2]; r_calls := [[1; 1]; [3 / 2; 1]] |}.
Proof.
  assert (B : set_right_bound ex_gradient 10 [1 / 2; 2] [true; false] = [1 / 2 * 2 * 2; 2]).
  { rewrite (bound_go _ _ _ _ [true; false]); [|cbn [ex_gradient ex_step map jac negative map2 andb]; rewrite (proj2 (Rltb_iff _ _)) by lra; reflexivity|reflexivity].
    cbn [map2]. rewrite (bound_go _ _ _ _ [true; false]); [|cbn [ex_gradient ex_step map jac negative map2 andb]; rewrite (proj2 (Rltb_iff _ _)) by lra; reflexivity|reflexivity].
    cbn [map2]. apply bound_stop. cbn [ex_gradient ex_step map jac negative map2 andb existsb orb]. rewrite (proj2 (Rltb_false _ _)) by lra. reflexivity. }
  set (bin1 := {| b_valid := true; b_xl := 1; b_xr := 2; b_val := 3 / 2 |}). set (bin2 := {| b_valid := false; b_xl := 0; b_xr := 2; b_val := 1 |}).
  assert (I : initial_bins [true; false] [0; 0] [1 / 2 * 2 * 2; 2] None =
    [{| b_valid := true; b_xl := 0; b_xr := 2; b_val := 1 |}; {| b_valid := false; b_xl := 0; b_xr := 2; b_val := 1 |}]).
  { unfold initial_bins. cbn [combine map2 fst snd]. repeat (f_equal; try lra). }
  replace (Some {| r_l := [3 / 2; 1]; r_variance := [RFin 1; RFin 1]; r_xl := [0; 0]; r_xr := [2; 2]; r_calls := [[1; 1]; [3 / 2; 1]] |})
    with (Some {| r_l := map b_val [bin1; bin2]; r_variance := map inverse_hessian [RFin 1; RFin 1]; r_xl := [0; 0]; r_xr := [1 / 2 * 2 * 2; 2]; r_calls := [[1; 1]; [3 / 2; 1]] |}).
  - apply (bisect_eq _ _ _ _ _ _ 9 _ _ _ _ _ _ B I).
    refine (loop_go ex_step 9 (1 / 100) _ _ _ [bin1; bin2] [RFin 1; RFin 1] [[3 / 2; 1]] eq_refl _ _).
    + cbn [ex_step map map2 b_val forallb]. unfold bin_converged, check_valid. cbn [b_valid b_xl b_xr b_val jac hess new_l is_finite andb value negb].
      repeat real_step. reflexivity.
    + cbn [ex_step map map2 b_val]. unfold update_bin, check_valid. cbn [b_valid b_xl b_xr b_val jac hess new_l is_finite andb value].
      repeat (real_step; cbn [orb]). refine (loop_stop ex_step 8 (1 / 100) [bin1; bin2] _ [bin1; bin2] eq_refl _).
      cbn [ex_step map map2 b_val forallb]. unfold bin_converged, bin1, bin2. cbn [b_valid b_xl b_xr b_val jac hess new_l is_finite andb value negb].
      repeat real_step. reflexivity.
  - unfold bin1, bin2. cbn [map b_val]. unfold inverse_hessian. repeat real_step. repeat (f_equal; try lra).
Qed.
Lemma ex_step_finite : forall i l s, nth_error (ex_step l) i = Some s -> all_finite s.
Proof. intros i l s H. unfold ex_step in H. rewrite nth_error_map in H. destruct (nth_error l i); [|discriminate]. injection H as <-. unfold all_finite. eauto. Qed.
Definition ex_row : price_row := {| pr_y := 3; pr_p := 2; pr_x := 1; pr_k := -1; pr_prior := -1; pr_s := 1; pr_lkp := 0; pr_bin := 1 |}.
