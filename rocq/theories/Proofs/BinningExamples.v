(** Concrete cases and witnesses for the binning properties. *)
From Coq Require Import ZArith NArith QArith List Bool Lia Lqa.
From Verif.Model Require Import Num BinarySearch Flags Ecdf BinTransform.
From Verif.Spec Require Import SearchSpec FlagSpec BinningSpec.
From Verif.Proofs Require Import NumFacts FnumOrder EcdfFacts ReduceFacts FitFacts TransformFacts FitUser EquivFacts.
Import ListNotations.
Local Open Scope Q_scope.

Definition ex_samples : list sample :=
  [(Fin 3, 1); (NaN, 2); (Fin 1, 1); (Fin 2, 1#2); (Fin 2, 1#2); (Fin 7, 1); (Fin 5, 1); (Fin 6, 1)].

Ltac each H := repeat (destruct H as [H|H]; [injection H as <- <-|]); [..|destruct H].

Lemma ex_positive : positive_weights ex_samples.
Proof. intros x w H. each H; reflexivity. Qed.
Lemma ex_finite : finite_or_nan ex_samples.
Proof. intros x w H. each H; auto. Qed.

Lemma ex_c02_continuous : usable (fit_column 1 3 0 (1#10) ex_samples) /\
  transform_column 1 (fit_column 1 3 0 (1#10) ex_samples) [NaN; Fin (-5); Fin 2; Fin 3; Fin 40; PInf] =
  Some (map (fun b => Fin (inject_Z b)) [-1; 0; 0; 1; 2; -1]%Z).
Proof. split; [exact I|vm_compute; reflexivity]. Qed.
Lemma ex_c02_discrete : usable (fit_column 2 3 0 (1#10) ex_samples) /\
  transform_column 2 (fit_column 2 3 0 (1#10) ex_samples) [NaN; Fin (-5); Fin 2; Fin 3; Fin 40; PInf] =
  Some (map (fun b => Fin (inject_Z b)) [-1; -1; 1; 2; -1; -1]%Z).
Proof. split; [exact I|vm_compute; reflexivity]. Qed.

Lemma not_magic_1 x : regular 1 (Fin x).
Proof. split; auto. intros [H _]. discriminate. Qed.
Lemma ex_c03 : exists e bb cc, fit_column 1 3 0 (1#10) ex_samples = Fitted e bb cc /\ length bb = 4%nat /\
  check_flags_consistency 1 = FlagsOk /\ is_continuous_set 1 = true /\ regular 1 (Fin 2).
Proof.
  do 3 eexists. split; [reflexivity|]. split; [reflexivity|]. split; [reflexivity|]. split; [reflexivity|].
  apply not_magic_1.
Qed.

Lemma ex_c04 : positive_weights ex_samples /\ finite_or_nan ex_samples /\
  check_flags_consistency 2 = FlagsOk /\ is_continuous_set 2 = false /\
  regular 2 (Fin 3) /\ occurs (Fin 3) (map fst ex_samples).
Proof.
  split; [apply ex_positive|]. split; [apply ex_finite|]. split; [reflexivity|]. split; [reflexivity|].
  split; [split; auto; intros [H _]; discriminate|]. exists (Fin 3). split; [left; reflexivity|reflexivity].
Qed.

Lemma discrete_boundaries prop n eps tol zw :
  check_flags_consistency prop = FlagsOk -> is_continuous_set prop = false -> (2 <= n)%Z ->
  positive_weights zw -> (exists x w, In (x, w) zw /\ x <> NaN) ->
  exists e bb cc, fit_column prop n eps tol zw = Fitted e bb cc /\
    increasing (tl bb) /\ (forall v, occurs v (tl bb) <-> occurs v (map fst zw)).
Proof.
  intros Hc Hcont Hn Hp Hx. destruct (discrete_fit prop n eps tol zw Hc Hcont Hn Hp Hx) as (e & bb & cc & Hf & Ht & _).
  exists e, bb, cc. split; auto. rewrite Ht. split; [apply StrictSorted_increasing, z_unique_sorted|apply z_unique_occurs].
Qed.

Lemma infinite_training_value : exists zw x,
  positive_weights zw /\ occurs x (map fst zw) /\ regular 2 x /\
  transform_column 2 (fit_column 2 100 (1#1000000000) (1#10) zw) [x] = Some [Fin (inject_Z (-1))].
Proof.
  exists [(Fin 1, 1); (PInf, 1)], (Fin 1). split; [intros x w H; each H; reflexivity|].
  split; [exists (Fin 1); split; [left; reflexivity|reflexivity]|].
  split; [split; auto; intros [H _]; discriminate|]. vm_compute. reflexivity.
Qed.

Lemma infinite_not_ignored : exists zw x,
  positive_weights zw /\
  transform_column 2 (fit_column 2 100 (1#1000000000) (1#10) zw) [x] <>
  transform_column 2 (fit_column 2 100 (1#1000000000) (1#10) (filter (fun p => isfinite (fst p)) zw)) [x].
Proof.
  exists [(Fin 1, 1); (PInf, 1)], (Fin 1). split; [intros x w H; each H; reflexivity|].
  vm_compute. discriminate.
Qed.

Lemma ex_c05 :
  transform_column 1041 (fit_column 1041 3 0 (1#10) ex_samples) [Fin (inject_Z (-9)); Fin (inject_Z (-999)); Fin 2] =
    Some (map (fun b => Fin (inject_Z b)) [-1; -1; 0]%Z) /\
  transform_column 1 (fit_column 1 3 0 (1#10) ex_samples) [Fin (inject_Z (-9)); Fin (inject_Z (-999)); Fin 2] =
    Some (map (fun b => Fin (inject_Z b)) [0; 0; 0]%Z).
Proof. split; vm_compute; reflexivity. Qed.

Lemma adaptive_bins zs cs n eps tol :
  distribution zs cs -> (2 <= n)%Z -> 0 <= tol < 1 ->
  0 <= eps -> eps < (1 - tol) / inject_Z n ->
  exists bb cc, reduce_cdf zs cs n eps tol = ReduceOk bb cc /\
    valid_binning zs cs n ((1 - tol) / inject_Z n - eps) bb cc.
Proof.
  intros H1 H2 H3 H4 H5. destruct (reduce_main zs cs n eps tol H1 H2 H3 H4 H5) as (bb & cc & H & V & _). eauto.
Qed.

Lemma fit_adaptive prop n eps tol zw :
  check_flags_consistency prop = FlagsOk -> is_continuous_set prop = true ->
  positive_weights zw -> (exists x w, In (x, w) zw /\ x <> NaN) ->
  (2 <= n)%Z -> 0 <= tol < 1 -> 0 <= eps -> eps < (1 - tol) / inject_Z n ->
  exists e bb cc zs cs,
    fit_column prop n eps tol zw = Fitted e bb cc /\ is_ecdf zw zs cs /\
    valid_binning zs cs n ((1 - tol) / inject_Z n - eps) bb cc.
Proof.
  intros H1 H2 H3 H4 H5 H6 H7 H8.
  destruct (fit_continuous prop n eps tol zw H1 H2 H3 H4 H5 H6 H7 H8) as (e & bb & cc & zs & cs & A & B & C & _).
  exists e, bb, cc, zs, cs. auto.
Qed.

(** Decision procedure for increasing rationals. *)
Fixpoint incrQ_b (l : list Q) : bool :=
  match l with
  | a :: ((b :: _) as r) => negb (Qle_bool b a) && incrQ_b r
  | _ => true
  end.
Lemma incrQ_sound l : incrQ_b l = true -> increasingQ l.
Proof.
  induction l as [|a l IH]; intros H i j x y Hij Hx Hy; [destruct i; discriminate|].
  assert (Hr : incrQ_b l = true /\ forall b, nth_error l 0 = Some b -> a < b).
  { destruct l as [|b r]; [split; auto; discriminate|]. cbn in H. apply andb_prop in H. destruct H as [H1 H2].
    split; auto. intros b' Eb. injection Eb as <-. apply negb_true_iff, Qle_bool_false in H1. exact H1. }
  destruct Hr as [Hr Ha]. specialize (IH Hr).
  destruct j as [|j]; [lia|]. cbn in Hy. destruct i as [|i]; cbn in Hx.
  - injection Hx as <-. destruct j as [|j]; [auto|].
    destruct (nth_error l 0) as [b|] eqn:E0; [|destruct l; discriminate].
    apply (Qlt_trans _ b); [auto|]. apply (IH 0%nat (S j)); auto. lia.
  - apply (IH i j); auto. lia.
Qed.
Fixpoint incr_b (l : list fnum) : bool :=
  match l with
  | a :: ((b :: _) as r) => flt a b && incr_b r
  | _ => true
  end.
Lemma incr_sound l : incr_b l = true -> increasing l.
Proof.
  induction l as [|a l IH]; intros H i j x y Hij Hx Hy; [destruct i; discriminate|].
  assert (Hr : incr_b l = true /\ forall b, nth_error l 0 = Some b -> flt a b = true).
  { destruct l as [|b r]; [split; auto; discriminate|]. cbn in H. apply andb_prop in H. destruct H as [H1 H2].
    split; auto. intros b' Eb. injection Eb as <-. exact H1. }
  destruct Hr as [Hr Ha]. specialize (IH Hr).
  destruct j as [|j]; [lia|]. cbn in Hy. destruct i as [|i]; cbn in Hx.
  - injection Hx as <-. destruct j as [|j]; [auto|].
    destruct (nth_error l 0) as [b|] eqn:E0; [|destruct l; discriminate].
    apply (flt_trans _ b); [auto|]. apply (IH 0%nat (S j)); auto. lia.
  - apply (IH i j); auto. lia.
Qed.

Lemma ex_distribution : distribution [Fin 1; Fin 2; Fin 5; PInf] [1#8; 1#2; 7#8; 1].
Proof.
  split; [reflexivity|]. split; [repeat constructor; discriminate|].
  split; [apply incr_sound; reflexivity|]. split; [apply incrQ_sound; reflexivity|].
  split; [intros c H; injection H as <-; reflexivity|]. exists 1. split; reflexivity.
Qed.

Lemma last_is_maximum zs cs n tol :
  distribution zs cs -> (2 <= n)%Z -> 0 <= tol < 1 ->
  exists bb cc, reduce_cdf zs cs n 0 tol = ReduceOk bb cc /\
    nth_error bb (length bb - 1) = nth_error zs (length zs - 1) /\
    exists c, nth_error cc (length cc - 1) = Some c /\ c == 1.
Proof.
  intros D Hn Ht.
  assert (Hn1 : 2 <= inject_Z n) by (change 2 with (inject_Z 2); rewrite <- Zle_Qle; auto).
  assert (Hp : 0 < (1 - tol) / inject_Z n) by (apply Qlt_shift_div_l; lra).
  destruct (reduce_main zs cs n 0 tol D Hn Ht ltac:(lra) Hp) as (bb & cc & Hr & V & L1 & L2).
  exists bb, cc. split; auto. split; [apply L2; reflexivity|].
  destruct V as (Vl & Vr & _ & _ & _ & _ & Vv & _).
  destruct (nth_error cc (length cc - 1)) as [c|] eqn:Ec; [|apply nth_error_None in Ec; lia].
  exists c. split; auto.
  assert (L : 1 <= c).
  { assert (G : 1 - 0 * inject_Z n <= c) by (apply L1; auto; lra). lra. }
  apply Qle_antisym; auto.
  destruct (nth_error bb (length cc - 1)) as [b|] eqn:Eb; [|apply nth_error_None in Eb; lia].
  destruct (Vv (length cc - 1)%nat b c ltac:(lia) Eb Ec) as (k & c' & _ & Hk & E). rewrite E.
  destruct D as (_ & _ & _ & Hi & _ & c1 & Hc1 & E1).
  assert (Lk : (k < length cs)%nat) by (apply nth_error_Some; congruence).
  destruct (Nat.eq_dec k (length cs - 1)) as [->|Hk1].
  - replace c' with c1 by congruence. lra.
  - pose proof (Hi k (length cs - 1)%nat c' c1 ltac:(lia) Hk Hc1). lra.
Qed.

Lemma remaining_probability zs cs n eps tol :
  distribution zs cs -> (2 <= n)%Z -> 0 <= tol < 1 ->
  0 <= eps -> eps * inject_Z n < (1 - tol) / inject_Z n ->
  exists bb cc, reduce_cdf zs cs n eps tol = ReduceOk bb cc /\
    forall c, nth_error cc (length cc - 1) = Some c -> 1 - c <= inject_Z n * eps.
Proof.
  intros D Hn Ht He He'.
  assert (Hn1 : 2 <= inject_Z n) by (change 2 with (inject_Z 2); rewrite <- Zle_Qle; auto).
  assert (Hp : eps < (1 - tol) / inject_Z n) by (apply (Qle_lt_trans _ (eps * inject_Z n)); [nra|auto]).
  destruct (reduce_main zs cs n eps tol D Hn Ht He Hp) as (bb & cc & Hr & V & L1 & L2).
  exists bb, cc. split; auto. intros c Hc. specialize (L1 c He' Hc). lra.
Qed.

Lemma large_epsilon : exists zs cs n eps tol bb cc c,
  distribution zs cs /\ (2 <= n)%Z /\ 0 <= tol < 1 /\ 0 <= eps /\ eps < (1 - tol) / inject_Z n /\
  reduce_cdf zs cs n eps tol = ReduceOk bb cc /\ nth_error cc (length cc - 1) = Some c /\
  inject_Z n * eps < 1 - c.
Proof.
  exists [Fin 1; Fin 2; Fin 3; Fin 4], [3034#10000; 607#1000; 64#100; 1], 3%Z, (3#100), (9#10),
    [Fin 1; Fin 1; Fin 2; Fin 3], [0; 3034#10000; 607#1000; 64#100], (64#100).
  split.
  { split; [reflexivity|]. split; [repeat constructor; discriminate|].
    split; [apply incr_sound; reflexivity|]. split; [apply incrQ_sound; reflexivity|].
    split; [intros c H; injection H as <-; reflexivity|]. exists 1. split; reflexivity. }
  repeat split; try reflexivity; try discriminate.
Qed.

Lemma zero_weight_discrete : exists zw,
  (forall x w, In (x, w) zw -> 0 <= w) /\
  fit_column 2 100 0 (1#10) zw = RaiseBroadcast /\
  usable (fit_column 2 100 0 (1#10) (without_zero zw)).
Proof.
  exists [(Fin 1, 1); (Fin 2, 0); (Fin 3, 1)].
  split; [intros x w H; each H; discriminate|]. split; [reflexivity|exact I].
Qed.

Lemma zero_weight_continuous : exists zw x,
  (forall y w, In (y, w) zw -> 0 <= w) /\
  transform_column 1 (fit_column 1 2 0 (1#10) zw) [x] <>
  transform_column 1 (fit_column 1 2 0 (1#10) (without_zero zw)) [x].
Proof.
  exists [(Fin 1, 1); (Fin 2, 0); (Fin 3, 1); (Fin 4, 2)], (Fin 3).
  split; [intros x w H; each H; discriminate|]. vm_compute. discriminate.
Qed.

Lemma ex_c08 :
  let zw := [(Fin 1, 1); (Fin 2, 0); (Fin 2, 3); (NaN, 0); (Fin 4, 1)] in
  (forall x w, In (x, w) zw -> 0 <= w) /\
  (forall x w, In (x, w) zw -> w == 0 -> x <> NaN -> occurs x (map fst (without_zero zw))).
Proof.
  intro zw. split; [intros x w H; each H; discriminate|].
  intros x w H W N. each H; try discriminate; try congruence.
  exists (Fin 2). split; [right; left; reflexivity|reflexivity].
Qed.

Lemma calculate_cdf_total (zw : list sample) :
  exists zs cs tot nn, calculate_cdf (map fst zw) (map snd zw) = CdfOk zs cs tot nn.
Proof. rewrite calculate_cdf_zw. do 4 eexists. reflexivity. Qed.

Lemma ecdf_shape zw zs cs :
  positive_weights zw -> is_ecdf zw zs cs ->
  increasingQ cs /\
  forall z c, nth_error zs (length zs - 1) = Some z -> nth_error cs (length zs - 1) = Some c -> c == 1.
Proof. intros Hp H. split; [eapply ecdf_increasing; eauto|]. intros z c. apply (ecdf_last zw); auto. Qed.

Lemma ex_c09 :
  calculate_cdf [Fin 3; NaN; Fin 1; Fin 3; PInf] [1; 5; 2; 3; 2] =
  CdfOk [Fin 1; Fin 3; PInf] [2#8; 6#8; 8#8] 8 1.
Proof. vm_compute. reflexivity. Qed.

Lemma ex_c10 : positive_weights ex_samples /\ finite_or_nan ex_samples /\
  (exists x w, In (x, w) ex_samples /\ x <> NaN) /\ (1#100) < (1 - (1#10)) / inject_Z 3.
Proof.
  split; [apply ex_positive|]. split; [apply ex_finite|]. split; [|reflexivity].
  exists (Fin 3), 1. split; [left; reflexivity|discriminate].
Qed.
