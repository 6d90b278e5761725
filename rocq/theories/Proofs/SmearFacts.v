(** Facts on smeared cdf values. *)
From Coq Require Import ZArith List Bool Reals Lia Lra.
From Verif.Model Require Import Train Diagnostics.
From Verif.Spec Require Import DiagnosticsSpec.
Local Open Scope R_scope.

Lemma below_unique m m' A : holds_below m A -> holds_below m' A -> m = m'.
Proof.
  intros [B H] [B' H']. destruct (Rtotal_order m m') as [L|[E|L]]; [exfalso|exact E|exfalso].
  - destruct (H ((m + m') / 2)) as [_ N]; [lra|]. destruct (H' ((m + m') / 2)) as [Y _]; [lra|]. apply N; [lra|]. apply Y; lra.
  - destruct (H ((m + m') / 2)) as [Y _]; [lra|]. destruct (H' ((m + m') / 2)) as [N' N]; [lra|]. apply N; [lra|]. apply Y; lra.
Qed.

Lemma line_below c p t : 0 <= p -> exists m, holds_below m (fun u => c + u * p <= t) /\ p * m = Rmin t (c + p) - Rmin t c.
Proof.
  intro P. destruct (Req_dec p 0) as [Z|Z].
  - subst p. destruct (Rle_dec c t) as [L|L].
    + exists 1. split; [|rewrite Rplus_0_r; lra]. split; [lra|]. intros u U. split; intro; lra.
    + exists 0. split; [|rewrite Rplus_0_r; lra]. split; [lra|]. intros u U. split; intro; [lra|]. intro. lra.
  - assert (P' : 0 < p) by lra. set (x := (t - c) / p). assert (X : x * p = t - c) by (unfold x; field; lra).
    destruct (Rle_dec x 0) as [A|A]; [|destruct (Rle_dec 1 x) as [B|B]].
    + exists 0. assert (t <= c). { assert (x * p <= 0 * p) by (apply Rmult_le_compat_r; lra). lra. }
      split; [|rewrite !Rmin_left by lra; lra]. split; [lra|]. intros u U. split; intro V; [lra|].
      intro W. assert (0 < u * p) by (apply Rmult_lt_0_compat; lra). lra.
    + exists 1. assert (c + p <= t). { assert (1 * p <= x * p) by (apply Rmult_le_compat_r; lra). lra. }
      split; [|rewrite !Rmin_right by lra; lra]. split; [lra|]. intros u U. split; intro V; [|lra].
      assert (u * p <= 1 * p) by (apply Rmult_le_compat_r; lra). lra.
    + exists x. assert (0 < x * p) by (apply Rmult_lt_0_compat; lra).
      assert (x * p < 1 * p) by (apply Rmult_lt_compat_r; lra).
      split; [|rewrite Rmin_left, Rmin_right by lra; lra]. split; [lra|]. intros u U. split; intro V.
      * assert (u * p < x * p) by (apply Rmult_lt_compat_r; lra). lra.
      * intro W. assert (x * p < u * p) by (apply Rmult_lt_compat_r; lra). lra.
Qed.

Lemma smear_line F y u : discrete_cdf F -> smear F (Z.of_nat y) u = F (Z.of_nat y - 1)%Z + u * probability F y.
Proof.
  intros [Z _]. unfold smear, probability. destruct (Z.leb 1 (Z.of_nat y)) eqn:E; [reflexivity|].
  apply Z.leb_gt in E. rewrite (Z (Z.of_nat y - 1)%Z) by lia. reflexivity.
Qed.
Lemma probability_nonneg F y : discrete_cdf F -> 0 <= probability F y.
Proof. intros [_ M]. unfold probability. specialize (M (Z.of_nat y - 1)%Z). replace (Z.of_nat y - 1 + 1)%Z with (Z.of_nat y) in M by lia. lra. Qed.
Lemma smear_between F y u : discrete_cdf F -> 0 <= u <= 1 ->
  F (Z.of_nat y - 1)%Z <= smear F (Z.of_nat y) u <= F (Z.of_nat y).
Proof.
  intros D U. rewrite smear_line by exact D. pose proof (probability_nonneg F y D) as P.
  assert (0 <= u * probability F y) by (apply Rmult_le_pos; lra).
  assert (u * probability F y <= 1 * probability F y) by (apply Rmult_le_compat_r; lra). unfold probability in *. lra.
Qed.

Lemma smear_below F y t : discrete_cdf F -> exists m, holds_below m (fun u => smear F (Z.of_nat y) u <= t) /\
  probability F y * m = Rmin t (F (Z.of_nat y)) - Rmin t (F (Z.of_nat y - 1)%Z).
Proof.
  intro D. destruct (line_below (F (Z.of_nat y - 1)%Z) (probability F y) t (probability_nonneg F y D)) as (m & [B H] & E).
  exists m. split.
  - split; [exact B|]. intros u U. specialize (H u U). rewrite (smear_line F y u D). exact H.
  - rewrite E. unfold probability. f_equal. f_equal. lra.
Qed.
Lemma smear_exists F y t : discrete_cdf F -> exists m, holds_below m (fun u => smear F (Z.of_nat y) u <= t).
Proof. intro D. destruct (smear_below F y t D) as (m & H & _). exists m. exact H. Qed.

Lemma smear_uniform F t m : discrete_cdf F -> 0 <= t -> (forall y, holds_below (m y) (fun u => smear F (Z.of_nat y) u <= t)) ->
  forall n, sum_f_R0 (fun y => probability F y * m y) n = Rmin t (F (Z.of_nat n)).
Proof.
  intros D T H. assert (E : forall y, probability F y * m y = Rmin t (F (Z.of_nat y)) - Rmin t (F (Z.of_nat y - 1)%Z)).
  { intro y. destruct (smear_below F y t D) as (m' & H' & E). rewrite (below_unique _ _ _ (H y) H'). exact E. }
  induction n as [|n IH]; cbn [sum_f_R0].
  - rewrite E. change (Z.of_nat 0 - 1)%Z with (-1)%Z. destruct D as [Z _]. rewrite (Z (-1)%Z) by lia. rewrite (Rmin_right t 0) by lra. lra.
  - rewrite IH, E. replace (Z.of_nat (S n) - 1)%Z with (Z.of_nat n) by lia. lra.
Qed.
Lemma smear_uniform_limit F t m : discrete_cdf F -> Un_cv (fun n => F (Z.of_nat n)) 1 -> 0 <= t <= 1 ->
  (forall y, holds_below (m y) (fun u => smear F (Z.of_nat y) u <= t)) ->
  infinite_sum (fun y => probability F y * m y) t.
Proof.
  intros D C T H. intros eps P. destruct (C eps P) as (n0 & N). exists n0. intros n G. specialize (N n G).
  rewrite (smear_uniform F t m D (proj1 T) H). unfold R_dist in *.
  unfold Rmin. destruct (Rle_dec t (F (Z.of_nat n))) as [L|L].
  - rewrite Rminus_diag_eq by reflexivity. rewrite Rabs_R0. exact P.
  - apply Rabs_def2 in N. apply Rabs_def1; lra.
Qed.

(** The numbers -2 and -1 with probability 1/2 each: the smeared value lies in
    [0, 1/2] with probability 3/4. *)
Definition two_below (y : Z) : R := if Z.ltb y (-2) then 0 else if Z.ltb y (-1) then 1 / 2 else 1.
Lemma negative_smear : holds_below 1 (fun u => smear two_below (-2) u <= 1 / 2) /\
  holds_below (1 / 2) (fun u => smear two_below (-1) u <= 1 / 2).
Proof.
  unfold smear, two_below. cbn. split; (split; [lra|]); intros u U; split; intro V; try lra; intro W; lra.
Qed.

(** A fair coin. *)
Definition coin (y : Z) : R := if Z.ltb y 0 then 0 else if Z.ltb y 1 then 1 / 2 else 1.
Lemma coin_cdf : discrete_cdf coin /\ Un_cv (fun n => coin (Z.of_nat n)) 1.
Proof.
  unfold coin. split; [split|].
  - intros y H. apply Z.ltb_lt in H. now rewrite H.
  - intro y. destruct (Z.ltb_spec y 0), (Z.ltb_spec (y + 1) 0), (Z.ltb_spec y 1), (Z.ltb_spec (y + 1) 1); try lra; lia.
  - intros eps P. exists 1%nat. intros n H. destruct (Z.ltb_spec (Z.of_nat n) 0); [lia|]. destruct (Z.ltb_spec (Z.of_nat n) 1); [lia|].
    unfold R_dist. rewrite Rminus_diag_eq by reflexivity. now rewrite Rabs_R0.
Qed.
