(** Dispersion estimator (C72, C73). *)
From Coq Require Import List Bool Reals Lia Lra Psatz.
From Verif.Model Require Import Train Dispersion.
From Verif.Spec Require Import DispersionSpec.
From Verif.Proofs Require Import TrainFacts ImportanceFacts.
Import ListNotations.
Local Open Scope R_scope.

(** ** Candidates *)
Lemma Rpower_pos a b : 0 < Rpower a b.
Proof. apply exp_pos. Qed.

Lemma linspace_In s t n x : s <= t -> In x (linspace s t n) -> s <= x <= t.
Proof.
  intros L. destruct n as [|[|n]]; [intros []|intros [<-|[]]; lra|].
  unfold linspace. rewrite in_map_iff. intros (i & <- & Hi). apply in_seq in Hi.
  replace (S (S n) - 1)%nat with (S n) by lia.
  assert (P : 0 < INR (S n)) by (apply lt_0_INR; lia).
  assert (I0 : 0 <= INR i) by apply pos_INR.
  assert (I1 : INR i <= INR (S n)) by (apply le_INR; lia).
  assert (Q : 0 <= INR i * ((t - s) / INR (S n)) <= t - s).
  { split.
    - apply Rmult_le_pos; auto. apply Rmult_le_pos; [lra|]. left. apply Rinv_0_lt_compat; auto.
    - replace (INR i * ((t - s) / INR (S n))) with ((INR i / INR (S n)) * (t - s)) by (field; lra).
      assert (INR i / INR (S n) <= 1) by (apply Rmult_le_reg_r with (INR (S n)); auto; unfold Rdiv; rewrite Rmult_assoc, Rinv_l; lra).
      assert (0 <= t - s) by lra. nra. }
  lra.
Qed.

Definition reach (iteration : nat) : R := Rpower 10 (1 / INR iteration).

Lemma steps_In it n x : (1 <= it)%nat -> In x (logspace (-3) (1 / INR it) (Nat.div n it)) -> 0 < x <= reach it.
Proof.
  intros Hi H. unfold logspace in H. apply in_map_iff in H. destruct H as (e & <- & He).
  split; [apply Rpower_pos|].
  assert (P : 0 < / INR it) by (apply Rinv_0_lt_compat, lt_0_INR; lia).
  apply linspace_In in He; [|lra].
  unfold reach. apply Rle_Rpower; lra.
Qed.

Lemma candidates it n : (1 <= it)%nat ->
  In 0 (new_c_links it n) /\
  forall c, In c (new_c_links it n) -> Rabs c <= Rpower 10 (1 / INR it) /\ In (- c) (new_c_links it n).
Proof.
  intro Hi. unfold new_c_links. split; [apply in_app_iff; right; left; auto|].
  intros c Hc. rewrite in_app_iff, in_map_iff in *. cbn [In] in *.
  destruct Hc as [(x & <- & Hx)|[<-|Hx]].
  - apply in_rev in Hx. pose proof (steps_In it n x Hi Hx) as [P Q]. split.
    + rewrite Rabs_Ropp, Rabs_right; [exact Q|lra].
    + rewrite Ropp_involutive. auto.
  - rewrite Rabs_R0, Ropp_0. split; [left; apply Rpower_pos|auto].
  - pose proof (steps_In it n c Hi Hx) as [P Q]. split.
    + rewrite Rabs_right; [exact Q|lra].
    + left. exists c. split; auto. apply in_rev. rewrite rev_involutive. auto.
Qed.

Lemma new_c_links_nonempty it n : new_c_links it n <> [].
Proof. unfold new_c_links. intro H. apply app_eq_nil in H. destruct H. discriminate. Qed.

(** ** argmin *)
Lemma argmin_from_spec l : forall pre best v i,
  i = length pre -> (best < length pre)%nat -> nth best pre 0 = v -> (forall x, In x pre -> v <= x) ->
  let r := argmin_from best v i l in
  (r < length (pre ++ l))%nat /\ forall x, In x (pre ++ l) -> nth r (pre ++ l) 0 <= x.
Proof.
  induction l as [|a l IH]; intros pre best v i Hi Hb Hv Hm; cbn [argmin_from].
  - cbv zeta. rewrite app_nil_r. split; auto. intros x Hx. rewrite Hv. auto.
  - replace (pre ++ a :: l) with ((pre ++ [a]) ++ l) by (rewrite <- app_assoc; auto).
    destruct (Rltb a v) eqn:E.
    + apply Rltb_iff in E. apply IH.
      * rewrite app_length; cbn; lia.
      * rewrite app_length; cbn; lia.
      * subst i. rewrite app_nth2 by lia. rewrite Nat.sub_diag. auto.
      * intros x Hx. apply in_app_iff in Hx. destruct Hx as [Hx|[<-|[]]]; [specialize (Hm x Hx); lra|lra].
    + apply Rltb_false in E. apply IH.
      * rewrite app_length; cbn; lia.
      * rewrite app_length; cbn; lia.
      * rewrite app_nth1; auto.
      * intros x Hx. apply in_app_iff in Hx. destruct Hx as [Hx|[<-|[]]]; auto.
Qed.

Lemma argmin_spec l : l <> [] -> (argmin l < length l)%nat /\ forall x, In x l -> nth (argmin l) l 0 <= x.
Proof.
  destruct l as [|a l]; [congruence|]. intros _. cbn [argmin].
  apply (argmin_from_spec l [a] 0 a 1); auto. intros x [<-|[]]. lra.
Qed.

Lemma argmin_best f l : l <> [] -> best_of f l (nth (argmin (map f l)) l 0).
Proof.
  intro N. assert (N' : map f l <> []) by (destruct l; [congruence|discriminate]).
  destruct (argmin_spec (map f l) N') as [B M]. rewrite map_length in B.
  split; [apply nth_In; auto|]. intros y Hy.
  assert (E : nth (argmin (map f l)) (map f l) 0 = f (nth (argmin (map f l)) l 0)).
  { rewrite (nth_indep _ 0 (f 0)) by (rewrite map_length; auto). apply map_nth. }
  rewrite <- E. apply M. apply in_map. auto.
Qed.

Section Loss.
Variable lgamma : R -> option R.
Notation calc := (calc_parameters lgamma).

Lemma estimate_nth rows nb gamma bayes n it j c :
  nth_error (fst (calc rows nb gamma bayes n it)) j = Some c ->
  (j < nb)%nat /\
  c = let loss := map (bin_loss lgamma rows gamma j) (new_c_links it n) in
      if bayes then bayes_bin loss (new_c_links it n) else nth (argmin loss) (new_c_links it n) 0.
Proof.
  cbn [calc_parameters fst]. unfold calc_parameters_nbinom_c. intro H.
  assert (L : (j < nb)%nat).
  { rewrite <- (seq_length nb 0). rewrite <- (map_length (fun j => let loss := map (bin_loss lgamma rows gamma j) (new_c_links it n) in
      if bayes then bayes_bin loss (new_c_links it n) else nth (argmin loss) (new_c_links it n) 0)).
    apply nth_error_Some. intro Z. cbv zeta in Z, H. congruence. }
  split; auto. rewrite nth_error_map in H.
  rewrite (nth_error_nth' (seq 0 nb) 0%nat) in H by (rewrite seq_length; auto).
  rewrite seq_nth in H by auto. cbn [option_map Nat.add] in H. injection H as <-. reflexivity.
Qed.

Lemma estimate_length rows nb gamma bayes n it :
  length (fst (calc rows nb gamma bayes n it)) = nb /\ length (snd (calc rows nb gamma bayes n it)) = nb.
Proof. cbn. unfold calc_parameters_nbinom_c. rewrite !map_length, seq_length. auto. Qed.

Lemma estimate_best rows nb gamma n it j c :
  nth_error (fst (calc rows nb gamma false n it)) j = Some c ->
  best_of (bin_loss lgamma rows gamma j) (new_c_links it n) c.
Proof.
  intro H. apply estimate_nth in H. destruct H as [_ ->]. cbv zeta. apply argmin_best, new_c_links_nonempty.
Qed.

(** The sum over all rows is the sum over the bins. *)
Lemma sum_by_bins nb (f : crow -> R) rows : (forall r, In r rows -> (c_bin r < nb)%nat) ->
  sumR (map f rows) = sumR (map (fun j => sumR (map f (bin_rows rows j))) (seq 0 nb)).
Proof.
  induction rows as [|r rows IH]; intro H.
  - cbn. clear. induction (seq 0 nb) as [|j l IH]; cbn; [auto|]. rewrite <- IH. lra.
  - cbn [map sumR]. rewrite IH by (intros; apply H; right; auto).
    assert (B : (c_bin r < nb)%nat) by (apply H; left; auto).
    assert (G : forall a k, sumR (map (fun j => sumR (map f (bin_rows (r :: rows) j))) (seq a k)) =
      (if (Nat.leb a (c_bin r) && Nat.ltb (c_bin r) (a + k))%bool then f r else 0) +
      sumR (map (fun j => sumR (map f (bin_rows rows j))) (seq a k))).
    { intros a k. revert a. induction k as [|k IHk]; intro a; cbn [seq map sumR].
      - destruct (Nat.leb a (c_bin r)) eqn:E1; cbn [andb]; [|lra].
        destruct (Nat.ltb (c_bin r) (a + 0)) eqn:E2; [|lra].
        apply Nat.leb_le in E1. apply Nat.ltb_lt in E2. lia.
      - rewrite IHk. cbn [bin_rows filter]. fold (bin_rows rows a).
        destruct (Nat.eqb_spec (c_bin r) a) as [E|E].
        + cbn [map sumR].
          assert (E1 : Nat.leb (S a) (c_bin r) = false) by (apply Nat.leb_gt; lia).
          assert (E2 : Nat.leb a (c_bin r) = true) by (apply Nat.leb_le; lia).
          assert (E3 : Nat.ltb (c_bin r) (a + S k) = true) by (apply Nat.ltb_lt; lia).
          rewrite E1, E2, E3. cbn [andb]. lra.
        + assert (E4 : (Nat.leb a (c_bin r) && Nat.ltb (c_bin r) (a + S k))%bool =
                       (Nat.leb (S a) (c_bin r) && Nat.ltb (c_bin r) (S a + k))%bool).
          { replace (S a + k)%nat with (a + S k)%nat by lia. f_equal.
            destruct (Nat.leb_spec a (c_bin r)), (Nat.leb_spec (S a) (c_bin r)); auto; lia. }
          rewrite E4. lra. }
    rewrite G. cbn [Nat.leb]. destruct (Nat.ltb_spec (c_bin r) (0 + nb)); cbn [andb]; [auto|lia].
Qed.

Lemma sumR_le l : forall f g : nat -> R, (forall j, In j l -> f j <= g j) -> sumR (map f l) <= sumR (map g l).
Proof.
  induction l as [|j l IH]; intros f g H; cbn; [lra|].
  pose proof (H j (or_introl eq_refl)). pose proof (IH f g (fun k Hk => H k (or_intror Hk))). lra.
Qed.

Lemma step_no_worse rows nb gamma n it : (1 <= it)%nat -> (forall r, In r rows -> (c_bin r < nb)%nat) ->
  let est := fst (calc rows nb gamma false n it) in
  sumR (map (fun r => sample_loss lgamma gamma (nth (c_bin r) est 0) r) rows) <=
  sumR (map (sample_loss lgamma gamma 0) rows).
Proof.
  intros Hi Hb est. rewrite (sum_by_bins nb _ rows Hb), (sum_by_bins nb (sample_loss lgamma gamma 0) rows Hb).
  apply sumR_le. intros j Hj. apply in_seq in Hj.
  assert (L : length est = nb) by apply estimate_length.
  assert (E : nth_error est j = Some (nth j est 0)) by (apply nth_error_nth'; lia).
  pose proof (estimate_best _ _ _ _ _ _ _ E) as [_ M].
  assert (EQ : map (fun r => sample_loss lgamma gamma (nth (c_bin r) est 0) r) (bin_rows rows j) =
          map (sample_loss lgamma gamma (nth j est 0)) (bin_rows rows j)).
  { apply map_ext_in. intros r Hr. apply filter_In in Hr. destruct Hr as [_ Hr]. apply Nat.eqb_eq in Hr.
    rewrite Hr. auto. }
  rewrite EQ. apply (M 0). apply candidates; auto.
Qed.

Lemma frozen rows nb gamma bayes n it : (n < it)%nat ->
  forall c, In c (fst (calc rows nb gamma bayes n it)) -> c = 0.
Proof.
  intros H c Hc. apply In_nth_error in Hc. destruct Hc as (j & Hj). apply estimate_nth in Hj. destruct Hj as [_ ->].
  assert (E : new_c_links it n = [0]). { unfold new_c_links. rewrite Nat.div_small by auto. reflexivity. }
  rewrite E. cbv zeta. destruct bayes.
  - unfold bayes_bin. cbn [map softmax max_of fold_left map2 sumR]. lra.
  - reflexivity.
Qed.

(** ** Expectation of the posterior *)
Lemma sumR_pos l : l <> [] -> (forall x, In x l -> 0 < x) -> 0 < sumR l.
Proof.
  destruct l as [|a l]; [congruence|]. intros _ H. cbn.
  assert (0 <= sumR l).
  { clear -H. assert (G : forall x, In x l -> 0 < x) by (intros; apply H; right; auto). clear H.
    induction l as [|b l IH]; cbn; [lra|]. pose proof (G b (or_introl eq_refl)).
    pose proof (IH (fun x Hx => G x (or_intror Hx))). lra. }
  pose proof (H a (or_introl eq_refl)). lra.
Qed.

Lemma sum_div l s : sumR (map (fun x => x / s) l) = sumR l / s.
Proof. induction l as [|a l IH]; cbn; [unfold Rdiv; lra|]. rewrite IH. unfold Rdiv. lra. Qed.

Lemma softmax_facts loss : loss <> [] ->
  length (softmax loss) = length loss /\ sumR (softmax loss) = 1 /\ forall x, In x (softmax loss) -> 0 < x.
Proof.
  intro N. unfold softmax. set (m := max_of (map Ropp loss)). set (e := map (fun x => exp (x - m)) (map Ropp loss)).
  assert (Ne : e <> []) by (unfold e; destruct loss; [congruence|discriminate]).
  assert (P : forall x, In x e -> 0 < x).
  { intros x Hx. unfold e in Hx. apply in_map_iff in Hx. destruct Hx as (y & <- & _). apply exp_pos. }
  pose proof (sumR_pos e Ne P) as S. split; [unfold e; rewrite !map_length; auto|]. split.
  - rewrite sum_div. field. lra.
  - intros x Hx. apply in_map_iff in Hx. destruct Hx as (y & <- & Hy).
    apply Rmult_lt_0_compat; [apply P; auto|apply Rinv_0_lt_compat; auto].
Qed.

Lemma weighted_bounds (w v : list R) lo hi : length w = length v -> (forall x, In x w -> 0 < x) ->
  (forall x, In x v -> lo <= x <= hi) -> lo * sumR w <= sumR (map2 Rmult w v) <= hi * sumR w.
Proof.
  revert v. induction w as [|a w IH]; intros [|b v] L P B; cbn in *; try discriminate; [lra|].
  pose proof (P a (or_introl eq_refl)). pose proof (B b (or_introl eq_refl)).
  assert (LL : length w = length v) by lia.
  pose proof (IH v LL (fun x Hx => P x (or_intror Hx)) (fun x Hx => B x (or_intror Hx))). nra.
Qed.

Lemma bayes_bounds rows nb gamma n it j c : (1 <= it)%nat ->
  nth_error (fst (calc rows nb gamma true n it)) j = Some c -> Rabs c <= Rpower 10 (1 / INR it).
Proof.
  intros Hi H. apply estimate_nth in H. destruct H as [_ ->]. cbv zeta. unfold bayes_bin.
  set (loss := map _ (new_c_links it n)).
  assert (N : loss <> []).
  { unfold loss. pose proof (new_c_links_nonempty it n). destruct (new_c_links it n); [congruence|discriminate]. }
  destruct (softmax_facts loss N) as (L & S & P).
  destruct (weighted_bounds (softmax loss) (new_c_links it n) (- Rpower 10 (1 / INR it)) (Rpower 10 (1 / INR it))); auto.
  - rewrite L. unfold loss. apply map_length.
  - intros x Hx. destruct (candidates it n Hi) as [_ G]. destruct (G x Hx) as [A _].
    unfold Rabs in A. destruct (Rcase_abs x); lra.
  - rewrite S in *. apply Rabs_le. lra.
Qed.

(** A bin without samples. *)
Lemma empty_losses rows gamma j (l : list R) : bin_rows rows j = [] ->
  map (bin_loss lgamma rows gamma j) l = map (fun _ => 0) l.
Proof. intro H. apply map_ext. intro x. unfold bin_loss. rewrite H. reflexivity. Qed.

Lemma argmin_zeros {A} (l : list A) : argmin (map (fun _ => 0) l) = 0%nat.
Proof.
  destruct l as [|a l]; auto. cbn. generalize 1%nat as i. induction l as [|b l IH]; intro i; cbn; auto.
  rewrite (proj2 (Rltb_false 0 0)) by lra. apply IH.
Qed.

Lemma sum_rev l : sumR (rev l) = sumR l.
Proof.
  induction l as [|a l IH]; cbn; auto. rewrite sumR_app, IH. cbn. lra.
Qed.

Lemma sum_opp l : sumR (map Ropp l) = - sumR l.
Proof. induction l as [|a l IH]; cbn; [lra|]. rewrite IH. lra. Qed.

Lemma candidates_sum it n : sumR (new_c_links it n) = 0.
Proof.
  unfold new_c_links. cbv zeta. rewrite sumR_app. cbn [sumR].
  rewrite sum_opp, sum_rev. lra.
Qed.

Lemma bayes_empty rows nb gamma n it j c : bin_rows rows j = [] ->
  nth_error (fst (calc rows nb gamma true n it)) j = Some c -> c = 0.
Proof.
  intros E H. apply estimate_nth in H. destruct H as [_ ->]. cbv zeta. rewrite empty_losses by auto.
  set (g := new_c_links it n). unfold bayes_bin.
  assert (Hs : exists k, softmax (map (fun _ => 0) g) = map (fun _ => k) g).
  { unfold softmax. rewrite !map_map. eexists. apply map_ext. intro x. reflexivity. }
  destruct Hs as (k & Hs). rewrite Hs.
  assert (G : forall l, sumR (map2 Rmult (map (fun _ => k) l) l) = k * sumR l).
  { clear. induction l as [|a l IH]; cbn; [lra|]. rewrite IH. lra. }
  rewrite G. unfold g. rewrite candidates_sum. lra.
Qed.

Lemma hd_rev_last (l : list R) d : hd d (map Ropp (rev l)) = match l with [] => d | _ => - last l 0 end.
Proof.
  induction l as [|a l IH] using rev_ind; [reflexivity|].
  rewrite rev_app_distr. cbn [rev app map hd]. rewrite last_last. destruct l; reflexivity.
Qed.

Lemma steps_last it n : (1 <= it)%nat -> (2 * it <= n)%nat ->
  last (logspace (-3) (1 / INR it) (Nat.div n it)) 0 = Rpower 10 (1 / INR it).
Proof.
  intros Hi Hn. assert (Q : (2 <= Nat.div n it)%nat).
  { apply Nat.div_le_lower_bound; lia. }
  destruct (Nat.div n it) as [|[|m]]; try lia. unfold logspace, linspace.
  rewrite seq_S, !map_app. cbn [map]. rewrite last_last. f_equal.
  replace (S (S m) - 1)%nat with (S m) by lia. rewrite Nat.add_0_l.
  field. split; apply not_0_INR; lia.
Qed.

Lemma ml_empty rows nb gamma n it j c : (1 <= it)%nat -> bin_rows rows j = [] ->
  nth_error (fst (calc rows nb gamma false n it)) j = Some c ->
  ((it <= n)%nat -> c < 0) /\ ((2 * it <= n)%nat -> c = - Rpower 10 (1 / INR it)).
Proof.
  intros Hi E H. apply estimate_nth in H. destruct H as [_ ->]. cbv zeta. rewrite empty_losses, argmin_zeros by auto.
  unfold new_c_links. cbv zeta. set (steps := logspace _ _ _).
  assert (HD : (it <= n)%nat -> nth 0 (map Ropp (rev steps) ++ 0 :: steps) 0 = - last steps 0 /\ steps <> []).
  { intro Hn. assert (Q : (1 <= Nat.div n it)%nat) by (apply Nat.div_le_lower_bound; lia).
    assert (N : steps <> []).
    { unfold steps, logspace. destruct (Nat.div n it) as [|[|m]]; [lia|discriminate|discriminate]. }
    split; auto.
    pose proof (hd_rev_last steps 0) as HR. destruct (map Ropp (rev steps)) as [|x l] eqn:EM.
    - apply (f_equal (@length R)) in EM. rewrite map_length, rev_length in EM. destruct steps; [congruence|discriminate].
    - cbn in *. rewrite HR. destruct steps; [congruence|auto]. }
  split; intro Hn.
  - destruct (HD Hn) as [-> N].
    assert (L : In (last steps 0) steps).
    { destruct (exists_last N) as (l & a & ->). rewrite last_last. apply in_app_iff. right; left; auto. }
    apply steps_In in L; auto. lra.
  - destruct HD as [-> N]; [lia|]. unfold steps. rewrite steps_last; auto.
Qed.

End Loss.

(** ** The distribution *)
Lemma nb_p_range mu c : 0 <= mu -> 0 <= c -> 0 < nb_p mu c < 1.
Proof.
  intros Hm Hc. unfold nb_p. assert (0 <= c * mu) by (apply Rmult_le_pos; auto).
  assert (P : 0 < 1 / (1 + c * mu)) by (apply Rdiv_lt_0_compat; lra).
  pose proof (Rmin_r (1 / (1 + c * mu)) (1 - 1 / 100000000)).
  split; [apply Rmin_glb_lt; lra|lra].
Qed.

Lemma nb_moments mu c : 0 <= mu -> 0 <= c ->
  nb_mean (nb_n mu c) (nb_p mu c) = mu /\
  nb_variance (nb_n mu c) (nb_p mu c) = Rmax (mu + c * mu * mu) (mu / (1 - 1 / 100000000)).
Proof.
  intros Hm Hc. pose proof (nb_p_range mu c Hm Hc) as [P Q]. unfold nb_mean, nb_variance, nb_n.
  split; [field; lra|].
  replace (mu * nb_p mu c / (1 - nb_p mu c) * (1 - nb_p mu c) / (nb_p mu c * nb_p mu c)) with (mu * / nb_p mu c) by (field; lra).
  assert (CM : 0 <= c * mu) by (apply Rmult_le_pos; auto).
  unfold nb_p in *. set (k := 1 - 1 / 100000000) in *. assert (K : 0 < k) by (unfold k; lra).
  unfold Rmin. destruct (Rle_dec (1 / (1 + c * mu)) k) as [L|L].
  - replace (mu * / (1 / (1 + c * mu))) with (mu + c * mu * mu) by (field; lra).
    symmetry. apply Rmax_left. unfold Rdiv.
    assert (I : / k <= 1 + c * mu).
    { apply Rmult_le_reg_l with k; auto. rewrite Rinv_r by lra.
      apply Rmult_le_compat_r with (r := 1 + c * mu) in L; [|lra].
      unfold Rdiv in L. rewrite Rmult_1_l, Rinv_l in L by lra. lra. }
    nra.
  - symmetry. unfold Rdiv at 1. apply Rmax_right. apply Rnot_le_lt in L.
    assert (I : 1 + c * mu <= / k).
    { apply Rmult_le_reg_l with k; auto. rewrite Rinv_r by lra.
      apply Rmult_lt_compat_r with (r := 1 + c * mu) in L; [|lra].
      unfold Rdiv in L. rewrite Rmult_1_l, Rinv_l in L by lra. lra. }
    unfold Rdiv. nra.
Qed.

(** ** Examples *)
Definition ex_lgamma (x : R) : option R := if Rltb 0 x then Some 0 else None.
Definition ex_rows : list crow := [{| c_y := 2; c_mu := 1; c_link := 0; c_bin := 0 |}].

Lemma ex_empty : exists c,
  nth_error (fst (calc_parameters ex_lgamma ex_rows 2 0 false 15 1)) 1 = Some c /\
  bin_rows ex_rows 1 = [] /\ c = - Rpower 10 (1 / INR 1) /\ c <> 0.
Proof.
  destruct (nth_error (fst (calc_parameters ex_lgamma ex_rows 2 0 false 15 1)) 1) as [c|] eqn:E.
  - exists c. split; auto. split; [reflexivity|].
    destruct (ml_empty ex_lgamma ex_rows 2 0 15 1 1 c) as [A B]; auto. split; [apply B; lia|].
    specialize (A ltac:(lia)). lra.
  - exfalso. apply nth_error_None in E. pose proof (estimate_length ex_lgamma ex_rows 2 0 false 15 1) as [L _]. lia.
Qed.

Lemma ex_candidates : length (new_c_links 4 15) = 7%nat /\ (forall r, In r ex_rows -> (c_bin r < 2)%nat).
Proof. split; [reflexivity|]. intros r [<-|[]]. cbn. lia. Qed.

(** ** Exact candidates *)
Lemma candidates_grid it n c : (1 <= it)%nat -> (2 * it <= n)%nat ->
  In c (new_c_links it n) <-> c = 0 \/ power_grid (-3) (1 / INR it) (Nat.div n it) (Rabs c).
Proof.
  intros Hi Hn. assert (Q : (2 <= Nat.div n it)%nat) by (apply Nat.div_le_lower_bound; lia).
  assert (G : forall x, In x (logspace (-3) (1 / INR it) (Nat.div n it)) <-> power_grid (-3) (1 / INR it) (Nat.div n it) x).
  { intro x. unfold power_grid. destruct (Nat.div n it) as [|[|m]] eqn:D; try lia.
    unfold logspace, linspace. rewrite map_map, in_map_iff.
    assert (C : INR (S (S m) - 1) = INR (S (S m)) - 1).
    { replace (S (S m) - 1)%nat with (S m) by lia. rewrite (S_INR (S m)). lra. }
    rewrite C. assert (P : INR (S (S m)) - 1 <> 0). { rewrite <- C. apply not_0_INR. lia. }
    split.
    - intros (i & <- & H). apply in_seq in H. exists i. split; [lia|]. f_equal. field. split; auto. apply not_0_INR; lia.
    - intros (i & H & ->). exists i. split; [|apply in_seq; lia]. f_equal. field. split; auto. apply not_0_INR; lia. }
  unfold new_c_links. cbv zeta. rewrite in_app_iff, in_map_iff. cbn [In]. split.
  - intros [(x & <- & H)|[<-|H]]; auto; right.
    + apply in_rev in H. pose proof (steps_In it n x Hi H). rewrite Rabs_Ropp, Rabs_right by lra. apply G; auto.
    + pose proof (steps_In it n c Hi H). rewrite Rabs_right by lra. apply G; auto.
  - intros [->|H]; auto. apply G in H. unfold Rabs in H. destruct (Rcase_abs c); auto.
    left. exists (- c). split; [lra|]. rewrite <- in_rev. auto.
Qed.

Lemma sigmoid_range x : 0 < sigmoid x < 1.
Proof.
  unfold sigmoid. pose proof (exp_pos (- x)). split.
  - apply Rdiv_lt_0_compat; lra.
  - apply Rmult_lt_reg_r with (1 + exp (- x)); [lra|]. unfold Rdiv. rewrite Rmult_assoc, Rinv_l; lra.
Qed.

Lemma sample_loss_spec lgamma lg gamma new_c r :
  (forall x, 0 < x -> lgamma x = Some (lg x)) -> 0 <= c_y r -> 0 < c_mu r ->
  let c := sigmoid (new_c + c_link r) in
  sample_loss lgamma gamma new_c r = penalised_nll lg gamma (c_y r) (nb_n (c_mu r) c) (nb_p (c_mu r) c) c.
Proof.
  intros Hl Hy Hm c. unfold sample_loss. fold c. pose proof (sigmoid_range (new_c + c_link r)) as C. fold c in C.
  destruct (nb_p_range (c_mu r) c) as [P Q]; try lra.
  assert (N : 0 < nb_n (c_mu r) c).
  { unfold nb_n. apply Rdiv_lt_0_compat; [|lra]. apply Rmult_lt_0_compat; auto. }
  unfold nbinom_log_pmf, log_of. rewrite !Hl by lra.
  rewrite (proj2 (Rltb_iff 0 (nb_p (c_mu r) c))) by auto.
  rewrite (proj2 (Rltb_iff 0 (1 - nb_p (c_mu r) c))) by lra.
  unfold penalised_nll. rewrite (Rabs_right c) by lra. ring.
Qed.

Lemma ex_loss : (forall x, 0 < x -> ex_lgamma x = Some ((fun _ => 0) x)) /\
  Forall (fun r => 0 <= c_y r /\ 0 < c_mu r) ex_rows.
Proof.
  split; [|repeat constructor; cbn; lra]. intros x H. unfold ex_lgamma. rewrite (proj2 (Rltb_iff 0 x)); auto.
Qed.

(** ** Uncertainties and the reported loss *)
Lemma uncertainty_spec lgamma rows nb gamma bayes n it j u :
  nth_error (snd (calc_parameters lgamma rows nb gamma bayes n it)) j = Some u ->
  0 < u <= 1 /\
  (filter (fun r => Nat.eqb (c_bin r) j) rows = [] -> u = 1) /\
  (filter (fun r => Nat.eqb (c_bin r) j) rows <> [] ->
   u * u * INR (length (filter (fun r => Nat.eqb (c_bin r) j) rows)) = 1).
Proof.
  intro H. unfold calc_parameters in H. cbn [snd] in H.
  assert (J : (j < nb)%nat).
  { destruct (Nat.lt_ge_cases j nb) as [J|J]; [exact J|exfalso].
    rewrite (proj2 (nth_error_None _ j)) in H; [discriminate|]. now rewrite map_length, seq_length. }
  rewrite nth_error_map in H.
  rewrite (nth_error_nth' (seq 0 nb) 0%nat), seq_nth in H by (rewrite ?seq_length; exact J).
  assert (U : u = 1 / sqrt (INR (Nat.max 1 (length (bin_rows rows j))))) by (cbn [option_map] in H; change (0 + j)%nat with j in H; congruence).
  rewrite U. clear H U u.
  set (l := filter (fun r => Nat.eqb (c_bin r) j) rows). change (bin_rows rows j) with l.
  assert (P : 1 <= INR (Nat.max 1 (length l))).
  { change 1 with (INR 1). apply le_INR. lia. }
  pose proof (sqrt_lt_R0 (INR (Nat.max 1 (length l))) ltac:(lra)) as SP.
  pose proof (sqrt_sqrt (INR (Nat.max 1 (length l))) ltac:(lra)) as SS.
  split; [split|split].
  - apply Rdiv_lt_0_compat; [exact Rlt_0_1|exact SP].
  - assert (1 <= sqrt (INR (Nat.max 1 (length l)))) by (rewrite <- sqrt_1 at 1; apply sqrt_le_1; lra).
    apply (Rmult_le_reg_r (sqrt (INR (Nat.max 1 (length l))))); [lra|].
    unfold Rdiv. rewrite Rmult_assoc, Rinv_l by lra. lra.
  - intro Z. assert (E : Nat.max 1 (length l) = 1%nat) by (rewrite Z; reflexivity). rewrite E. change (INR 1) with 1. rewrite sqrt_1. field.
  - intro NE. assert (E : Nat.max 1 (length l) = length l) by (destruct l; [congruence|cbn; lia]).
    rewrite E in *. set (r := sqrt (INR (length l))) in *. rewrite <- SS. field. lra.
Qed.

Lemma sample_loss_invalid lgamma gamma new_c r :
  let c := sigmoid (new_c + c_link r) in
  nbinom_log_pmf lgamma (c_y r) (nb_n (c_mu r) c) (nb_p (c_mu r) c) = None ->
  sample_loss lgamma gamma new_c r = 400 + gamma * c.
Proof.
  intros c H. unfold sample_loss. fold c. rewrite H. rewrite (Rabs_right c); auto.
  pose proof (sigmoid_range (new_c + c_link r)) as C. fold c in C. lra.
Qed.
Lemma zero_mean_loss lgamma gamma new_c r : lgamma 0 = None -> c_mu r = 0 ->
  sample_loss lgamma gamma new_c r = 400 + gamma * (1 / (1 + exp (- (new_c + c_link r)))).
Proof.
  intros L Z. apply sample_loss_invalid. unfold nbinom_log_pmf.
  replace (nb_n (c_mu r) (sigmoid (new_c + c_link r))) with 0.
  - rewrite L. now destruct (lgamma (0 + c_y r)), (lgamma (c_y r + 1)).
  - unfold nb_n. rewrite Z. unfold Rdiv. ring.
Qed.

Lemma loss_consistent lgamma gamma (change : crow -> R) rows :
  loss_nbinom_c lgamma (map (fun r => (c_y r, c_mu r, sigmoid (change r + c_link r))) rows) gamma =
  mean (map (fun r => sample_loss lgamma gamma (change r) r) rows).
Proof.
  unfold loss_nbinom_c. rewrite map_map. f_equal. apply map_ext. intro r. unfold sample_loss.
  now destruct (nbinom_log_pmf lgamma _ _ _).
Qed.
Lemma reported_no_worse lgamma rows nb gamma n it : (1 <= it)%nat -> rows <> [] ->
  (forall r, In r rows -> (c_bin r < nb)%nat) ->
  let est := fst (calc_parameters lgamma rows nb gamma false n it) in
  loss_nbinom_c lgamma (map (fun r => (c_y r, c_mu r, sigmoid (nth (c_bin r) est 0 + c_link r))) rows) gamma <=
  loss_nbinom_c lgamma (map (fun r => (c_y r, c_mu r, sigmoid (c_link r))) rows) gamma.
Proof.
  intros I NE B est.
  rewrite (loss_consistent lgamma gamma (fun r => nth (c_bin r) est 0) rows).
  assert (E : map (fun r => (c_y r, c_mu r, sigmoid (c_link r))) rows =
              map (fun r => (c_y r, c_mu r, sigmoid ((fun _ => 0) r + c_link r))) rows).
  { apply map_ext. intro r. cbn beta. now rewrite Rplus_0_l. }
  rewrite E, (loss_consistent lgamma gamma (fun _ => 0) rows).
  unfold mean. rewrite !map_length.
  apply Rmult_le_compat_r; [|apply step_no_worse; auto].
  left. apply Rinv_0_lt_compat. apply lt_0_INR. destruct rows; [congruence|cbn; lia].
Qed.
