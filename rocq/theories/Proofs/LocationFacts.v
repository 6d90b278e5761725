(** Bin estimates of the location models. *)
From Coq Require Import List Bool Reals Lia Lra.
From Verif.Model Require Import Num LexBins Train Predict Link Estimators.
From Verif.Spec Require Import TrainSpec PredictSpec LinkSpec EstimatorSpec.
From Verif.Proofs Require Import TrainFacts TrainExamples PredictFacts ImportanceFacts LinkFacts EstimatorFacts.
Import ListNotations.
Local Open Scope R_scope.

Lemma map2_len {A B C} (f : A -> B -> C) a : forall b, length a = length b -> length (map2 f a b) = length a.
Proof. induction a; intros [|y b] H; cbn in *; try discriminate; auto. Qed.
Lemma bin_sum_ext_in lex v v' k : (forall j, row_in lex k j -> v j = v' j) -> bin_sum lex v k = bin_sum lex v' k.
Proof.
  intro H. unfold bin_sum. apply sumR_ext. intros j Hj. apply in_seq in Hj.
  destruct (Nat.eqb_spec (nth j lex 0%nat) k) as [E|]; [|reflexivity]. apply H. unfold row_in. rewrite <- E. apply nth_error_nth'. lia.
Qed.
Lemma bin_sum_pos lex v k : (forall j, row_in lex k j -> 0 <= v j) -> (exists j, row_in lex k j /\ 0 < v j) -> 0 < bin_sum lex v k.
Proof.
  intros H (j & Hj & Hv). destruct (bin_sum_nonneg lex v k H) as [L|E]; [exact L|exfalso].
  assert (G : bin_sum lex (fun i => if Nat.eqb i j then v j else 0) k <= bin_sum lex v k).
  { apply bin_sum_le. intros i Hi. destruct (Nat.eqb_spec i j) as [->|]; [lra|apply H; auto]. }
  assert (F : bin_sum lex (fun i => if Nat.eqb i j then v j else 0) k = v j).
  { unfold bin_sum. unfold row_in in Hj. pose proof (row_in_lt _ _ _ Hj) as Lj.
    rewrite (sumR_ext _ (fun i => if Nat.eqb i j then v j else 0)).
    2:{ intros i _. destruct (Nat.eqb_spec i j) as [->|]; [|destruct (Nat.eqb _ _); reflexivity].
        rewrite (nth_error_nth _ _ _ Hj), Nat.eqb_refl. reflexivity. }
    clear - Lj. assert (G : forall n s, sumR (map (fun i => if Nat.eqb i j then v j else 0) (seq s n)) = if (Nat.leb s j && Nat.ltb j (s + n))%bool then v j else 0).
    { induction n as [|n IH]; intro s; cbn [seq map sumR].
      - destruct (Nat.leb_spec s j), (Nat.ltb_spec j (s + 0)); cbn; auto; lia.
      - rewrite IH. destruct (Nat.eqb_spec s j), (Nat.leb_spec s j), (Nat.leb_spec (S s) j), (Nat.ltb_spec j (s + S n)), (Nat.ltb_spec j (S s + n)); cbn; try lra; lia. }
    rewrite G. destruct (Nat.ltb_spec j (0 + length lex)); cbn; auto; lia. }
  lra.
Qed.

Lemma in_bin_iff lex k : in_bin lex k = true <-> exists j, row_in lex k j.
Proof.
  unfold in_bin, row_in. rewrite existsb_exists. split.
  - intros (b & Hb & E). apply Nat.eqb_eq in E. subst b. apply In_nth_error in Hb. auto.
  - intros (j & Hj). exists k. split; [eapply nth_error_In; eauto|apply Nat.eqb_refl].
Qed.

Lemma variance_prior_pos y w v : variance_prior y w = Some v -> 0 < v.
Proof.
  unfold variance_prior. destruct (weighted_mean y w); [|discriminate]. intro H. injection H as <-.
  destruct (Rleb _ _) eqn:E; [lra|]. apply Rleb_false in E. lra.
Qed.
Lemma variance_prior_some y w : sumR w <> 0 -> exists v, variance_prior y w = Some v.
Proof.
  intro H. unfold variance_prior, weighted_mean. rewrite (proj2 (Reqb_false_iff _ _) H). eauto.
Qed.
Lemma squared_residuals_nonneg lex y w k r : per_row lex y -> per_row lex w -> nonneg w ->
  squared_residuals lex y w k = Some r -> 0 <= r.
Proof.
  intros Hy Hw Pw. unfold squared_residuals. destruct (_ && _); [discriminate|]. cbv zeta. intro H. injection H as <-.
  rewrite bin_total_sum by (apply pr_map2; auto). apply bin_sum_nonneg. intros j Hj. apply row_in_lt in Hj.
  rewrite (at_map2 lex) by auto. apply Rmult_le_pos; [apply nonneg_at; auto|apply pow2_ge_0].
Qed.
Lemma precalc_variance_pos lex n y w k v : per_row lex y -> per_row lex w -> nonneg w ->
  nth_error (precalc_variance_y lex n y w) k = Some (Some v) -> 0 < v.
Proof.
  intros Hy Hw Pw H. unfold precalc_variance_y in H. rewrite nth_error_map in H.
  destruct (nth_error (seq 0 n) k) as [k'|]; [|discriminate]. cbn [option_map] in H. injection H as H.
  destruct (variance_prior y w) as [p|] eqn:Ep; [|discriminate].
  destruct (squared_residuals lex y w k') as [r|] eqn:Er; [|discriminate]. injection H as <-.
  apply variance_prior_pos in Ep. apply squared_residuals_nonneg in Er; auto.
  assert (0 <= bin_total lex w k') by (rewrite bin_total_sum by auto; apply bin_sum_nonneg; intros; apply nonneg_at; auto).
  apply Rdiv_lt_0_compat; lra.
Qed.

Lemma location_bin lex n y w s k :
  per_row lex y -> per_row lex w -> per_row lex s -> nonneg w -> sumR w <> 0 -> (k < n)%nat ->
  ((exists j, row_in lex k j) -> 0 < bin_sum lex (at_row w) k) ->
  exists v m u, 0 < v /\
    nth_error (location_parameters lex n y w s) k = Some (Some (m, u)) /\
    let w' := map (fun x => x / v) w in
    let residuals := map2 Rminus y s in
    (forall m', chi_square lex w' residuals 0 (1 / 100) k m <= chi_square lex w' residuals 0 (1 / 100) k m') /\
    (forall m', chi_square lex w' residuals 0 (1 / 100) k m' = chi_square lex w' residuals 0 (1 / 100) k m -> m' = m) /\
    (forall b, 0 <= b -> (forall j, row_in lex k j -> Rabs (at_row y j - at_row s j) <= b) -> Rabs m <= b) /\
    0 < u /\ ((forall j, ~ row_in lex k j) -> m = 0 /\ u = 10).
Proof.
  intros Hy Hw Hs Pw Tw Hk Hpos.
  destruct (variance_prior_some y w Tw) as [p Ep].
  assert (EV : exists v, nth_error (precalc_variance_y lex n y w) k = Some (Some v)).
  { unfold precalc_variance_y. rewrite nth_error_map, (nth_error_nth' _ 0%nat) by (rewrite seq_length; auto).
    rewrite seq_nth by auto. cbn [option_map plus]. rewrite Ep. unfold squared_residuals.
    destruct (in_bin lex k && Reqb (bin_total lex w k) 0) eqn:E; [exfalso|eauto].
    apply andb_true_iff in E. destruct E as [E1 E2]. apply in_bin_iff in E1. apply Reqb_iff in E2.
    rewrite bin_total_sum in E2 by auto. specialize (Hpos E1). lra. }
  destruct EV as [v EV]. pose proof (precalc_variance_pos lex n y w k v Hy Hw Pw EV) as Pv.
  set (variances := precalc_variance_y lex n y w) in *.
  set (variance_of := fun b => match nth b variances None with Some v => v | None => 1 end).
  set (wv := map2 (fun wi b => wi / variance_of b) w lex).
  assert (Lwv : per_row lex wv).
  { unfold per_row, wv. rewrite map2_len; [exact Hw|exact Hw]. }
  assert (Awv : forall j b, row_in lex b j -> at_row wv j = at_row w j / variance_of b).
  { intros j b Hj. unfold wv, row_in in *. pose proof (row_in_lt _ _ _ Hj) as Lj. unfold per_row in Hw.
    destruct (nth_error w j) as [x|] eqn:Ex.
    - rewrite (nth_error_nth _ _ _ Ex). apply nth_error_nth. apply (nth_error_map2 (fun wi b => wi / variance_of b)); auto.
    - exfalso. apply nth_error_None in Ex. lia. }
  assert (Vpos : forall b, 0 < variance_of b).
  { intro b. unfold variance_of. destruct (nth b variances None) as [v'|] eqn:E; [|lra].
    destruct (Nat.lt_ge_cases b (length variances)) as [L|L].
    - rewrite (nth_error_nth' variances None L) in * || idtac. apply (precalc_variance_pos lex n y w b); auto.
      fold variances. rewrite (nth_error_nth' variances None L), E. reflexivity.
    - rewrite nth_overflow in E by auto. discriminate. }
  assert (Pwv : nonneg wv).
  { intros x Hx. apply In_nth with (d := 0) in Hx. destruct Hx as (j & Lj & <-). unfold per_row in Lwv. rewrite Lwv in Lj.
    rewrite (Awv j (nth j lex 0%nat)) by (apply nth_error_nth'; auto).
    apply Rmult_le_pos; [apply nonneg_at; auto|left; apply Rinv_0_lt_compat; auto]. }
  set (x := map2 Rminus y s). assert (Lx : per_row lex x) by (apply pr_map2; auto).
  destruct (generic_bin lex wv x w n 0 (1 / 100) k Lwv Lx Hw Pwv Pw ltac:(lra) Hk) as (m & u & E & Q1 & Q2 & Q3 & U1 & U2 & Q4).
  exists v, m, u. split; [exact Pv|]. split.
  { unfold location_parameters. fold variances variance_of wv x.
    rewrite (nth_error_map2 _ _ _ _ _ _ EV E). reflexivity. }
  assert (Vk : variance_of k = v) by (unfold variance_of; rewrite (nth_error_nth _ _ _ EV); reflexivity).
  assert (Chi : forall m', chi_square lex (map (fun x => x / v) w) x 0 (1 / 100) k m' = chi_square lex wv x 0 (1 / 100) k m').
  { intro m'. unfold chi_square. f_equal. apply bin_sum_ext_in. intros j Hj. cbv beta.
    rewrite (at_map lex) by (eauto using row_in_lt). rewrite (Awv j k Hj), Vk. reflexivity. }
  cbv zeta. split; [intro m'; rewrite !Chi; auto|]. split; [intros m' H; apply Q2; rewrite <- !Chi; auto|].
  split.
  { intros b Hb Hj. apply Rabs_le. apply Q3; [lra|]. intros j Hr. specialize (Hj j Hr). unfold x.
    rewrite (at_map2 lex) by (eauto using row_in_lt). cbv beta in Hj.
    revert Hj. unfold Rabs. destruct (Rcase_abs _); lra. }
  split; [exact U1|]. intro He. destruct (Q4 He) as [-> Hu]. split; [reflexivity|].
  assert (Rsqr u = Rsqr 10) by (rewrite !Rsqr_pow2, Hu; field). apply Rsqr_inj in H; lra.
Qed.

(** A bin all of whose rows have weight zero. *)
Lemma location_weightless lex n y w s k : per_row lex w -> (k < n)%nat ->
  (exists j, row_in lex k j) -> bin_sum lex (at_row w) k = 0 ->
  nth_error (location_parameters lex n y w s) k = Some None.
Proof.
  intros Hw Hk Hr Hz. unfold location_parameters. cbv zeta.
  assert (E : nth_error (precalc_variance_y lex n y w) k = Some None).
  { unfold precalc_variance_y. rewrite nth_error_map, (nth_error_nth' _ 0%nat) by (rewrite seq_length; auto).
    rewrite seq_nth by auto. cbn [option_map plus]. unfold squared_residuals.
    rewrite (proj2 (in_bin_iff lex k) Hr), bin_total_sum by auto. rewrite (proj2 (Reqb_iff _ _) Hz). cbn [andb].
    destruct (variance_prior y w); reflexivity. }
  set (c := calc_factors_generic _ _ _ _ _ _ _).
  destruct (nth_error c k) as [r|] eqn:Er.
  - rewrite (nth_error_map2 _ _ _ _ _ _ E Er). reflexivity.
  - exfalso. apply nth_error_None in Er. unfold c, calc_factors_generic in Er. rewrite map_length, seq_length in Er. lia.
Qed.

(** ** LocPoisson *)

Lemma pois_variance_pos s : 0 < pois_variance s.
Proof. unfold pois_variance. destruct (Rltb 0 s) eqn:E; [apply Rltb_iff in E; auto|lra]. Qed.
Lemma pois_variance_eq s : (if Rleb (nonneg_part s) 0 then 1 else nonneg_part s) = pois_variance s.
Proof.
  unfold nonneg_part, pois_variance. destruct (Rltb 0 s) eqn:E.
  - apply Rltb_iff in E. replace (Rleb s 0) with false; [reflexivity|]. symmetry. apply Rleb_false. auto.
  - replace (Rleb 0 0) with true; [reflexivity|]. symmetry. apply Rleb_iff. lra.
Qed.

Lemma locpoisson_estimates lex n y w s k std :
  per_row lex y -> per_row lex w -> per_row lex s -> nonneg w -> weighted_stddev y w = Some std -> 0 < std -> (k < n)%nat ->
  exists mean shrink u,
    nth_error (locpoisson_parameters lex n y w s) k = Some (Some (shrink * mean, u)) /\
    mean * bin_sum lex (fun j => at_row w j / pois_variance (at_row s j)) k =
      bin_sum lex (fun j => at_row w j * (at_row y j - nonneg_part (at_row s j)) / pois_variance (at_row s j)) k /\
    0 <= shrink < 1 /\ 0 < u /\
    shrink = bin_sum lex (at_row w) k / (bin_sum lex (at_row w) k + (u / std) ^ 2) /\
    ((forall j, ~ row_in lex k j) -> mean = 0 /\ shrink = 0 /\ u = std).
Proof.
  intros Hy Hw Hs Pw Es Ps Hk.
  set (den := bin_sum lex (fun j => at_row w j / pois_variance (at_row s j)) k).
  set (num := bin_sum lex (fun j => at_row w j * (at_row y j - nonneg_part (at_row s j)) / pois_variance (at_row s j)) k).
  set (unc := bin_sum lex (fun j => at_row w j ^ 2 / pois_variance (at_row s j)) k).
  set (W := bin_sum lex (at_row w) k).
  assert (Hp : per_row lex (map nonneg_part s)) by (apply pr_map; auto).
  assert (Hv : per_row lex (map (fun p => if Rleb p 0 then 1 else p) (map nonneg_part s))) by (repeat apply pr_map; auto).
  assert (Av : forall j, (j < length lex)%nat -> nth j (map (fun p => if Rleb p 0 then 1 else p) (map nonneg_part s)) 0 = pois_variance (nth j s 0)).
  { intros j Hj. rewrite (at_map lex), (at_map lex) by auto. apply pois_variance_eq. }
  assert (E1 : bin_total lex (map2 Rdiv (map2 Rmult w (map2 Rminus y (map nonneg_part s))) (map (fun p => if Rleb p 0 then 1 else p) (map nonneg_part s))) k = num).
  { rewrite bin_total_sum by (repeat apply pr_map2; auto). apply bin_sum_ext. intros j Hj. cbv beta.
    rewrite (at_map2 lex) by (auto; repeat apply pr_map2; auto).
    rewrite (at_map2 lex) by (auto; repeat apply pr_map2; auto). rewrite (at_map2 lex), Av, (at_map lex) by auto. reflexivity. }
  assert (E2 : bin_total lex (map2 Rdiv w (map (fun p => if Rleb p 0 then 1 else p) (map nonneg_part s))) k = den).
  { rewrite bin_total_sum by (repeat apply pr_map2; auto). apply bin_sum_ext. intros j Hj. cbv beta.
    rewrite (at_map2 lex), Av by auto. reflexivity. }
  assert (E3 : bin_total lex (map2 (fun wi v => wi ^ 2 / v) w (map (fun p => if Rleb p 0 then 1 else p) (map nonneg_part s))) k = unc).
  { rewrite bin_total_sum by (repeat apply pr_map2; auto). apply bin_sum_ext. intros j Hj. cbv beta.
    rewrite (at_map2 lex), Av by auto. reflexivity. }
  assert (E4 : bin_total lex w k = W) by (apply bin_total_sum; auto).
  assert (Pden : 0 <= den).
  { apply bin_sum_nonneg. intros j _. pose proof (pois_variance_pos (nth j s 0)).
    apply Rmult_le_pos; [apply nonneg_at; auto|left; apply Rinv_0_lt_compat; auto]. }
  assert (Punc : 0 <= unc).
  { apply bin_sum_nonneg. intros j _. pose proof (pois_variance_pos (nth j s 0)).
    apply Rmult_le_pos; [apply pow2_ge_0|left; apply Rinv_0_lt_compat; auto]. }
  assert (PW : 0 <= W) by (apply bin_sum_nonneg; intros; apply nonneg_at; auto).
  assert (Zden : den = 0 -> num = 0 /\ W = 0).
  { intro Z. assert (Zw : forall j, row_in lex k j -> nth j w 0 = 0).
    { intros j Hj. pose proof (nonneg_at w j Pw) as [L|L]; [|auto]. exfalso.
      assert (0 < den); [|lra]. apply bin_sum_pos.
      - intros i _. pose proof (pois_variance_pos (nth i s 0)). apply Rmult_le_pos; [apply nonneg_at; auto|left; apply Rinv_0_lt_compat; auto].
      - exists j. split; [auto|]. apply Rdiv_lt_0_compat; [auto|apply pois_variance_pos]. }
    split.
    - unfold num. rewrite (bin_sum_ext_in lex _ (fun _ => 0 * 0)); [rewrite bin_sum_scal; ring|].
      intros j Hj. cbv beta. rewrite (Zw j Hj). unfold Rdiv. ring.
    - unfold W. rewrite (bin_sum_ext_in lex _ (fun _ => 0 * 0)); [rewrite bin_sum_scal; ring|].
      intros j Hj. cbv beta. rewrite (Zw j Hj). ring. }
  set (d := if Rltb 0 den then den else 1).
  assert (Pd : 0 < d) by (unfold d; destruct (Rltb 0 den) eqn:E; [apply Rltb_iff in E; auto|lra]).
  set (u := if Rltb 0 (unc / d) then unc / d else std).
  assert (Pu : 0 < u) by (unfold u; destruct (Rltb 0 (unc / d)) eqn:E; [apply Rltb_iff in E; auto|auto]).
  assert (Pu2 : 0 < (u / std) ^ 2) by (apply pow_lt, Rdiv_lt_0_compat; auto).
  exists (num / d), (W / (W + (u / std) ^ 2)), u. split.
  { unfold locpoisson_parameters. rewrite nth_error_map, (nth_error_nth' _ 0%nat) by (rewrite seq_length; auto).
    rewrite seq_nth by auto. cbn [option_map plus]. rewrite Es. unfold locpoisson_bin.
    change (map (fun s => if Rltb 0 s then s else 0) s) with (map nonneg_part s).
    rewrite E1, E2, E3, E4. fold d. cbv zeta. fold u.
    replace (Reqb std 0) with false by (symmetry; apply Reqb_false_iff; lra). do 3 f_equal.
    assert (0 < u ^ 2) by (apply pow_lt; auto). assert (0 < std ^ 2) by (apply pow_lt; auto).
    assert (0 <= W * std ^ 2) by (apply Rmult_le_pos; lra).
    field. repeat split; try lra. }
  split.
  { unfold d. destruct (Rltb 0 den) eqn:E; [apply Rltb_iff in E; field; lra|]. apply Rltb_false in E.
    assert (Z : den = 0) by lra. destruct (Zden Z) as [-> _]. rewrite Z. field. }
  split.
  { split; [apply Rmult_le_pos; [auto|left; apply Rinv_0_lt_compat; lra]|].
    set (c := (u / std) ^ 2) in *. apply (Rmult_lt_reg_r (W + c)); [lra|].
    replace (W / (W + c) * (W + c)) with W by (field; lra). lra. }
  split; [exact Pu|]. split; [reflexivity|]. intro He.
  assert (Z1 : num = 0) by (apply bin_sum_empty; auto). assert (Z2 : unc = 0) by (apply bin_sum_empty; auto).
  assert (Z3 : W = 0) by (apply bin_sum_empty; auto).
  split; [rewrite Z1; unfold Rdiv; ring|]. split; [rewrite Z3; unfold Rdiv; ring|].
  unfold u. rewrite Z2. replace (0 / d) with 0 by (unfold Rdiv; ring).
  replace (Rltb 0 0) with false; [reflexivity|]. symmetry. apply Rltb_false. lra.
Qed.

Lemma locpoisson_constant lex n y w s k c : per_row lex y -> per_row lex w ->
  (forall x, In x y -> x = c) -> sumR w <> 0 -> (k < n)%nat ->
  nth_error (locpoisson_parameters lex n y w s) k = Some None.
Proof.
  intros Hy Hw Hc H0 Hk. assert (L : length y = length w) by (unfold per_row in *; congruence).
  assert (E : weighted_stddev y w = Some 0).
  { unfold weighted_stddev, weighted_mean. rewrite (proj2 (Reqb_false_iff _ _) H0). f_equal.
    assert (M : sumR (map2 Rmult y w) / sumR w = c).
    { assert (sumR (map2 Rmult y w) = c * sumR w); [|rewrite H; field; auto]. clear - L Hc. revert w L.
      induction y as [|a y IH]; intros [|b w] L; cbn in *; try discriminate; [ring|].
      rewrite IH by auto. rewrite (Hc a) by auto. ring. }
    rewrite M. replace (sumR (map2 (fun wi yi => wi * (yi - c) ^ 2) w y)) with 0; [unfold Rdiv; rewrite Rmult_0_l; apply sqrt_0|].
    clear - L Hc. revert w L. induction y as [|a y IH]; intros [|b w] L; cbn [map2 sumR length] in *; try discriminate; [ring|].
    rewrite <- IH by (auto; intros; apply Hc; right; auto). rewrite (Hc a) by (left; auto). ring. }
  unfold locpoisson_parameters. rewrite nth_error_map, (nth_error_nth' _ 0%nat) by (rewrite seq_length; auto).
  cbn [option_map]. rewrite E. unfold locpoisson_bin. replace (Reqb 0 0) with true by (symmetry; apply Reqb_iff; auto). reflexivity.
Qed.
