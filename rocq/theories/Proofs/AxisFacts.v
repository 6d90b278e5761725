(** The vertical axis of factor plots (C123). *)
From Coq Require Import ZArith QArith Qabs Qround List Bool Reals Lia Lra.
From Coq Require Lqa.
From Verif.Model Require Import Num Train LexBins PlotAxis.
From Verif.Spec Require Import AxisSpec.
From Verif.Proofs Require Import BoundsFacts.
Import ListNotations.
Local Open Scope R_scope.

(** * Limits *)
Lemma fold_max l : forall x, x <= fold_left Rmax l x /\ (forall v, In v l -> v <= fold_left Rmax l x).
Proof.
  induction l as [|y l IH]; intro x; cbn [fold_left].
  - split; [lra|intros v []].
  - destruct (IH (Rmax x y)) as (A & B). pose proof (Rmax_l x y). pose proof (Rmax_r x y). split; [lra|].
    intros v [<-|H1]; [lra|auto].
Qed.
Lemma fold_min l : forall x, fold_left Rmin l x <= x /\ (forall v, In v l -> fold_left Rmin l x <= v).
Proof.
  induction l as [|y l IH]; intro x; cbn [fold_left].
  - split; [lra|intros v []].
  - destruct (IH (Rmin x y)) as (A & B). pose proof (Rmin_l x y). pose proof (Rmin_r x y). split; [lra|].
    intros v [<-|H1]; [lra|auto].
Qed.
Lemma maximum_ge l v : In v l -> v <= maximum l.
Proof. destruct l as [|x l]; [intros []|]. cbn [maximum]. destruct (fold_max l x) as (A & B). intros [<-|H]; auto. Qed.
Lemma minimum_le l v : In v l -> minimum l <= v.
Proof. destruct l as [|x l]; [intros []|]. cbn [minimum]. destruct (fold_min l x) as (A & B). intros [<-|H]; auto. Qed.

Lemma nth_map2 (g : R -> R -> R) : forall a b k, (k < length a)%nat -> (k < length b)%nat ->
  In (g (nth k a 0) (nth k b 0)) (map2 g a b).
Proof.
  induction a as [|x a IH]; intros [|y b] [|k]; cbn [length map2 nth]; try lia; intros H H'.
  - left. reflexivity.
  - right. apply IH; lia.
Qed.
Lemma nth_removelast (l : list R) : forall k, (S k < length l)%nat -> nth k (removelast l) 0 = nth k l 0.
Proof.
  induction l as [|x l IH]; intros k H; [cbn in H; lia|]. destruct l as [|y l]; [cbn in H; lia|].
  change (removelast (x :: y :: l)) with (x :: removelast (y :: l)). destruct k as [|k]; [reflexivity|]. cbn [nth]. apply IH.
  cbn [length] in H |- *. lia.
Qed.
Lemma length_removelast (l : list R) : length (removelast l) = (length l - 1)%nat.
Proof. destruct l as [|x l]; [reflexivity|]. rewrite removelast_firstn_len. rewrite firstn_length. cbn [length Nat.pred]. lia. Qed.
Lemma removelast_cons (f : list R) : (2 <= length f)%nat -> exists x r, removelast f = x :: r.
Proof. destruct f as [|x [|y f]]; cbn [length]; try lia. intros _. exists x, (removelast (y :: f)). reflexivity. Qed.

Lemma limits_some f l u : (2 <= length f)%nat ->
  y_limits f (Some (l, u)) =
  (Rmin (minimum (map2 Rminus (removelast f) (removelast l))) (last f 0),
   Rmax (maximum (map2 Rplus (removelast f) (removelast u))) (last f 0)).
Proof. intro H. destruct (removelast_cons f H) as (x & r & E). unfold y_limits. now rewrite E. Qed.

Lemma limits_bar f l u k : length l = length f -> length u = length f -> (S k < length f)%nat ->
  fst (y_limits f (Some (l, u))) <= nth k f 0 - nth k l 0 /\ nth k f 0 + nth k u 0 <= snd (y_limits f (Some (l, u))).
Proof.
  intros Ll Lu K. rewrite limits_some by lia. cbn [fst snd]. split.
  - eapply Rle_trans; [apply Rmin_l|]. rewrite <- (nth_removelast f k), <- (nth_removelast l k) by lia.
    apply minimum_le, nth_map2; rewrite length_removelast; lia.
  - eapply Rle_trans; [|apply Rmax_l]. rewrite <- (nth_removelast f k), <- (nth_removelast u k) by lia.
    apply maximum_ge, nth_map2; rewrite length_removelast; lia.
Qed.
Lemma limits_last f l u : (2 <= length f)%nat ->
  fst (y_limits f (Some (l, u))) <= last f 0 <= snd (y_limits f (Some (l, u))).
Proof. intro H. rewrite limits_some by exact H. cbn [fst snd]. split; [apply Rmin_r|apply Rmax_r]. Qed.
Lemma limits_none f v : In v f -> fst (y_limits f None) <= v <= snd (y_limits f None).
Proof.
  intro H. unfold y_limits. destruct (removelast f) as [|x r] eqn:E; cbn [fst snd].
  - destruct f as [|a [|b f]]; [destruct H| |discriminate E]. destruct H as [<-|[]]. cbn [last]. lra.
  - split; [now apply minimum_le|now apply maximum_ge].
Qed.

Lemma floor_below x : IZR (floor_real x) <= x.
Proof. unfold floor_real. destruct (base_Int_part x) as (A & _). exact A. Qed.
Lemma ceil_above x : x <= IZR (ceil_real x).
Proof. unfold ceil_real. rewrite opp_IZR. destruct (base_Int_part (- x)) as (A & _). lra. Qed.

(** * Ticks *)
Lemma scaled_more k : forall d r k', scaled_down k d = Some r -> (k <= k')%nat -> scaled_down k' d = Some r.
Proof.
  induction k as [|k IH]; intros d r k' H L; cbn [scaled_down] in H.
  - destruct (Qle_bool d 20) eqn:E; [|discriminate H]. destruct k'; cbn [scaled_down]; now rewrite E.
  - destruct k' as [|k']; [lia|]. cbn [scaled_down]. destruct (Qle_bool d 20); [exact H|]. apply (IH _ _ k' H). lia.
Qed.
Lemma scaled_ends k : forall d, (d <= 20 + inject_Z (Z.of_nat k))%Q -> exists r, scaled_down k d = Some r.
Proof.
  induction k as [|k IH]; intros d H; cbn [scaled_down].
  - cbn [Z.of_nat] in H. exists d. destruct (Qle_bool d 20) eqn:E; [reflexivity|].
    exfalso. assert (N : ~ (d <= 20)%Q) by (intro X; apply Qle_bool_iff in X; congruence). apply N.
    change (inject_Z 0) with 0%Q in H. Lqa.lra.
  - destruct (Qle_bool d 20) eqn:E; [exists d; reflexivity|]. apply IH.
    assert (N : ~ (d <= 20)%Q) by (intro X; apply Qle_bool_iff in X; congruence).
    rewrite Nat2Z.inj_succ, <- Z.add_1_r, inject_Z_plus in H. change (inject_Z 1) with 1%Q in H.
    assert (K : (0 <= inject_Z (Z.of_nat k))%Q) by (change 0%Q with (inject_Z 0); rewrite <- Zle_Qle; lia).
    set (q := inject_Z (Z.of_nat k)) in *. clearbody q.
    apply Qle_shift_div_r; [reflexivity|]. Lqa.lra.
Qed.
Lemma first_range d c : (12 <= first_ticks d c <= 21)%Z.
Proof.
  induction c as [|n c IH]; cbn [first_ticks]; [lia|].
  destruct (10 <? Qfloor (d * n))%Z eqn:A; cbn [andb]; [|exact IH].
  destruct (Qfloor (d * n) <=? 20)%Z eqn:B; [|exact IH]. apply Z.ltb_lt in A. apply Z.leb_le in B. lia.
Qed.
Lemma ticks_found z : exists n steps, (12 <= n <= 21)%Z /\ forall fuel, (steps <= fuel)%nat -> number_of_ticks fuel (inject_Z z) = Some n.
Proof.
  unfold number_of_ticks. destruct (negb (Qle_bool 1 (inject_Z z))).
  - exists 21%Z, 0%nat. split; [lia|]. reflexivity.
  - assert (E : exists r, scaled_down (Z.to_nat (Z.max 0 z)) (inject_Z z) = Some r).
    { apply scaled_ends. rewrite Z2Nat.id by lia.
      assert (H : (inject_Z z <= inject_Z (Z.max 0 z))%Q) by (rewrite <- Zle_Qle; lia). Lqa.lra. }
    destruct E as (r & E). exists (first_ticks r [20; 10; 5; 4; 2; 1]%Q), (Z.to_nat (Z.max 0 z)). split; [apply first_range|].
    intros fuel L. now rewrite (scaled_more _ _ _ fuel E L).
Qed.

(** The axis exists and has the limits of [y_limits]. *)
Lemma axis_found f u : exists a, drawn_with (fun fuel => get_y_axis fuel f u) a /\
  IZR (a_low a) <= fst (y_limits f u) /\ snd (y_limits f u) <= IZR (a_high a).
Proof.
  unfold get_y_axis.
  destruct (ticks_found (ceil_real (snd (y_limits f u)) - floor_real (fst (y_limits f u)))) as (n & steps & R1 & H).
  eexists. split.
  - exists steps. intros fuel L. rewrite (H fuel L). reflexivity.
  - cbn [a_low a_high]. split; [apply floor_below|apply ceil_above].
Qed.

(** * The plot of a feature *)
Lemma last_two (b : R) rest : last (b :: rest) 0 = nth (length rest) (b :: rest) 0.
Proof.
  revert b. induction rest as [|c rest IH]; intro b; [reflexivity|].
  change (last (b :: c :: rest) 0) with (last (c :: rest) 0). rewrite IH. reflexivity.
Qed.

Lemma positive_nth l k : positive l -> 0 <= nth k l 0.
Proof.
  intro P. destruct (Nat.lt_ge_cases k (length l)) as [L|L].
  - unfold positive in P. rewrite Forall_forall in P. apply P. now apply nth_In.
  - rewrite nth_overflow by lia. lra.
Qed.

Lemma minmax_covered a b rest l u : length l = S (S (length rest)) -> length u = S (S (length rest)) -> positive l -> positive u ->
  a <= b ->
  fst (y_limits (a :: b :: rest) (Some (l, u))) <= a /\ b <= snd (y_limits (a :: b :: rest) (Some (l, u))).
Proof.
  intros Ll Lu Pl Pu AB. split.
  - destruct (limits_bar (a :: b :: rest) l u 0) as (A & _); [exact Ll|exact Lu|cbn [length]; lia|].
    cbn [nth] in A. pose proof (positive_nth l 0 Pl). lra.
  - destruct rest as [|c rest].
    + destruct (limits_last [a; b] l u) as (_ & A); [cbn [length]; lia|]. exact A.
    + destruct (limits_bar (a :: b :: c :: rest) l u 1) as (_ & A); [exact Ll|exact Lu|cbn [length]; lia|].
      cbn [nth] in A. pose proof (positive_nth u 1 Pu). lra.
Qed.

Lemma minmax_none a b rest : fst (y_limits (a :: b :: rest) None) <= a /\ b <= snd (y_limits (a :: b :: rest) None).
Proof.
  split; [apply (limits_none (a :: b :: rest) a)|apply (limits_none (a :: b :: rest) b)]; cbn [In]; auto.
Qed.

Lemma min_le_max l : l <> [] -> minimum l <= maximum l.
Proof. destruct l as [|x l]; [congruence|]. intros _. pose proof (minimum_le (x :: l) x (or_introl eq_refl)).
  pose proof (maximum_ge (x :: l) x (or_introl eq_refl)). lra. Qed.

Section Plot.
Variable errors : bool.
Variable factors smoothed others lower upper : list R.
Hypothesis some : factors <> [].
Hypothesis len_lower : length lower = length factors.
Hypothesis len_upper : length upper = length factors.
Hypothesis pos_lower : positive lower.
Hypothesis pos_upper : positive upper.
Let all := factors ++ smoothed ++ others.

Lemma all_some : all <> [].
Proof. unfold all. destruct factors; [congruence|discriminate]. Qed.

(** Points, and the error bars of the bins from the third on, but not the last. *)
Theorem plot_covers : exists a, drawn_with (fun fuel => plot_axis fuel errors factors smoothed others lower upper) a /\
  (forall v, In v all -> on_axis a v) /\
  (errors = true -> forall k, (2 <= k)%nat -> (S k < length factors)%nat ->
     on_axis a (nth k factors 0 - nth k lower 0) /\ on_axis a (nth k factors 0 + nth k upper 0)).
Proof.
  pose proof all_some as SOME. pose proof (min_le_max all SOME) as MM.
  assert (C : exists f u, (forall fuel, plot_axis fuel errors factors smoothed others lower upper = get_y_axis fuel f u) /\
    fst (y_limits f u) <= minimum all /\ maximum all <= snd (y_limits f u) /\
    (errors = true -> forall k, (2 <= k)%nat -> (S k < length factors)%nat ->
       fst (y_limits f u) <= nth k factors 0 - nth k lower 0 /\ nth k factors 0 + nth k upper 0 <= snd (y_limits f u))).
  { unfold plot_axis. fold all. cbv zeta.
    destruct factors as [|x [|y rest]] eqn:EF; [congruence| |].
    - exists [minimum all; maximum all], (if errors then Some (lower ++ lower, upper ++ upper) else None).
      split; [reflexivity|]. destruct errors.
      + destruct (minmax_covered (minimum all) (maximum all) [] (lower ++ lower) (upper ++ upper)) as (A & B).
        * rewrite app_length. cbn [length] in *. lia.
        * rewrite app_length. cbn [length] in *. lia.
        * unfold positive in *. apply Forall_app. auto.
        * unfold positive in *. apply Forall_app. auto.
        * exact MM.
        * split; [exact A|]. split; [exact B|]. intros _ k K K'. cbn [length] in K'. lia.
      + destruct (minmax_none (minimum all) (maximum all) []) as (A & B). split; [exact A|]. split; [exact B|]. discriminate.
    - exists (minimum all :: maximum all :: rest), (if errors then Some (lower, upper) else None).
      split; [reflexivity|]. destruct errors.
      + destruct (minmax_covered (minimum all) (maximum all) rest lower upper) as (A & B); auto.
        split; [exact A|]. split; [exact B|]. intros _ k K K'.
        destruct k as [|[|k]]; [lia|lia|]. cbn [nth].
        destruct (limits_bar (minimum all :: maximum all :: rest) lower upper (S (S k))) as (D & E); auto.
      + destruct (minmax_none (minimum all) (maximum all) rest) as (A & B). split; [exact A|]. split; [exact B|]. discriminate. }
  destruct C as (f & u & EQ & A & B & K). destruct (axis_found f u) as (a & D & LO & HI).
  assert (PT : forall v, In v all -> on_axis a v).
  { intros v V. pose proof (minimum_le all v V). pose proof (maximum_ge all v V). unfold on_axis. lra. }
  exists a. split; [|split; [exact PT|]].
  - destruct D as (steps & D). exists steps. intros fuel L. rewrite EQ. apply D, L.
  - intros ER k K2 K3. destruct (K ER k K2 K3) as (P & Q). pose proof (positive_nth lower k pos_lower). pose proof (positive_nth upper k pos_upper).
    assert (V : on_axis a (nth k factors 0)).
    { apply PT. unfold all. apply in_or_app. left. apply nth_In. lia. }
    unfold on_axis in *. lra.
Qed.
End Plot.

(** * Ticks and labels of every axis *)
Lemma nth_ticks lo hi n k : (k < Z.to_nat n)%nat ->
  nth k (tick_positions lo hi n) 0%Q = (inject_Z lo + inject_Z (Z.of_nat k) * (inject_Z (hi - lo) / inject_Z (n - 1)))%Q.
Proof.
  intro K. unfold tick_positions.
  set (g := fun k0 => (inject_Z lo + inject_Z (Z.of_nat k0) * (inject_Z (hi - lo) / inject_Z (n - 1)))%Q).
  rewrite (nth_indep _ 0%Q (g 0%nat)) by (rewrite map_length, seq_length; exact K).
  rewrite (map_nth g). rewrite seq_nth by exact K. reflexivity.
Qed.

Lemma axis_form fuel f u a : get_y_axis fuel f u = Some a ->
  exists n, (12 <= n <= 21)%Z /\ a_ticks a = tick_positions (a_low a) (a_high a) n /\ a_labels a = map format_tick (a_ticks a).
Proof.
  unfold get_y_axis. set (z := (ceil_real _ - floor_real _)%Z). destruct (number_of_ticks fuel (inject_Z z)) as [n|] eqn:E; [|discriminate].
  intro H. inversion H; subst a. cbn [a_ticks a_labels a_low a_high]. exists n. split; [|split; reflexivity].
  unfold number_of_ticks in E. destruct (negb _); [inversion E; lia|].
  destruct (scaled_down fuel _) as [d|]; [|discriminate E]. assert (N : n = first_ticks d [20; 10; 5; 4; 2; 1]%Q) by congruence. rewrite N. apply first_range.
Qed.

Lemma ticks_even fuel f u a : get_y_axis fuel f u = Some a -> even_ticks a /\ (12 <= length (a_ticks a) <= 21)%nat.
Proof.
  intro H. destruct (axis_form _ _ _ _ H) as (n & R1 & T & _).
  assert (L : length (a_ticks a) = Z.to_nat n) by (rewrite T; unfold tick_positions; rewrite map_length, seq_length; reflexivity).
  split; [|lia]. exists (Z.to_nat n - 1)%nat. split; [lia|]. split; [lia|]. intros k K. rewrite T, nth_ticks by lia.
  replace (Z.of_nat (Z.to_nat n - 1)) with (n - 1)%Z by lia.
  assert (N : ~ (inject_Z (n - 1) == 0)%Q).
  { change 0%Q with (inject_Z 0). rewrite inject_Z_injective. lia. }
  field. exact N.
Qed.

Lemma format_close t : (Qabs (format_tick t - t) < 1 # 100)%Q.
Proof.
  unfold format_tick. destruct (flt_Q _ _ && flt_Q _ _) eqn:E.
  - apply andb_prop in E as (A & B). unfold flt_Q in A, B. apply negb_true_iff in A, B.
    set (r := inject_Z (np_round (Fin t))) in *. clearbody r.
    assert (A' : ~ (r <= t - (1 # 100))%Q) by (intro X; apply Qle_bool_iff in X; congruence).
    assert (B' : ~ (t + (1 # 100) <= r)%Q) by (intro X; apply Qle_bool_iff in X; congruence).
    apply Qabs_Qlt_condition. split; Lqa.lra.
  - pose proof (round_close (t * 100)) as C. apply Qabs_Qle_condition in C. set (r := inject_Z (np_round (Fin (t * 100)))) in *. clearbody r.
    apply Qabs_Qlt_condition. assert (D : (r / 100 == r * (1 # 100))%Q) by field. rewrite D. split; Lqa.lra.
Qed.

Lemma labels_close fuel f u a k : get_y_axis fuel f u = Some a -> (k < length (a_ticks a))%nat ->
  length (a_labels a) = length (a_ticks a) /\ (Qabs (nth k (a_labels a) 0 - nth k (a_ticks a) 0) < 1 # 100)%Q.
Proof.
  intros H K. destruct (axis_form _ _ _ _ H) as (n & R1 & T & LB). rewrite LB. split; [apply map_length|].
  rewrite (nth_indep (map format_tick (a_ticks a)) 0%Q (format_tick 0%Q)) by (rewrite map_length; exact K).
  rewrite map_nth. apply format_close.
Qed.

Lemma labels_increase fuel f u a i j : get_y_axis fuel f u = Some a -> (a_low a < a_high a)%Z ->
  (i < j)%nat -> (j < length (a_ticks a))%nat -> (nth i (a_labels a) 0 < nth j (a_labels a) 0)%Q.
Proof.
  intros H LH IJ J. destruct (labels_close _ _ _ _ i H) as (_ & CI); [lia|]. destruct (labels_close _ _ _ _ j H) as (_ & CJ); [lia|].
  apply Qabs_Qlt_condition in CI, CJ.
  set (li := nth i (a_labels a) 0%Q) in *. set (lj := nth j (a_labels a) 0%Q) in *. clearbody li lj.
  destruct (axis_form _ _ _ _ H) as (n & R1 & T & _). rewrite T in CI, CJ, J.
  unfold tick_positions in J. rewrite map_length, seq_length in J. rewrite nth_ticks in CI, CJ by lia.
  set (step := (inject_Z (a_high a - a_low a) / inject_Z (n - 1))%Q) in *.
  assert (S1 : (1 # 20 <= step)%Q).
  { unfold step. apply Qle_shift_div_l.
    - change 0%Q with (inject_Z 0). rewrite <- Zlt_Qlt. lia.
    - assert (A : (inject_Z 1 <= inject_Z (a_high a - a_low a))%Q) by (rewrite <- Zle_Qle; lia).
      assert (B : (inject_Z (n - 1) <= inject_Z 20)%Q) by (rewrite <- Zle_Qle; lia).
      change (inject_Z 1) with 1%Q in A. change (inject_Z 20) with 20%Q in B.
      set (x := inject_Z (a_high a - a_low a)) in *. set (y := inject_Z (n - 1)) in *. clearbody x y. Lqa.lra. }
  assert (D : (inject_Z (Z.of_nat i) + 1 <= inject_Z (Z.of_nat j))%Q).
  { change 1%Q with (inject_Z 1). rewrite <- inject_Z_plus, <- Zle_Qle. lia. }
  set (x := inject_Z (Z.of_nat i)) in *. set (y := inject_Z (Z.of_nat j)) in *. set (lo := inject_Z (a_low a)) in *.
  clearbody x y lo step. assert (P : (x * step + step <= y * step)%Q) by Lqa.nra. Lqa.lra.
Qed.

(** A single factor is drawn with a margin on both sides. *)
Theorem single_factor : forall v u, exists a, drawn_with (fun fuel => get_y_axis fuel [v] u) a /\
  on_axis a (v - 1/2) /\ on_axis a (v + 1/2) /\ (a_low a < a_high a)%Z.
Proof.
  intros v u. destruct (axis_found [v] u) as (a & D & L & H). exists a. split; [exact D|]. cbn [y_limits removelast last fst snd] in L, H.
  unfold on_axis. assert (IZR (a_low a) < IZR (a_high a)) by lra. split; [lra|]. split; [lra|]. apply lt_IZR. assumption.
Qed.
