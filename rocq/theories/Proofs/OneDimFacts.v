(** Facts about the seasonal and polynomial smoothers. *)
From Coq Require Import ZArith QArith Qreals List Bool Reals Lia Lra.
From Verif.Model Require Import Num LexBins Train MetaSmoothers Orthofit OneDim.
From Verif.Spec Require Import LexSpec MetaSpec OrthoSpec SeasonSpec.
From Verif.Proofs Require Import TrainFacts LinkFacts MetaFacts CutFacts MetaExamples OrthoFacts OrthoDegree.
Import ListNotations.
Local Open Scope R_scope.

(** ** Seasonal smoother *)
Lemma seasonality_period order x par : seasonality order (x + 2 * PI) par = seasonality order x par.
Proof.
  assert (S1 : sin (x + 2 * PI) = sin x) by (replace (x + 2 * PI) with (x + 2 * INR 1 * PI) by (cbn; ring); apply sin_period).
  assert (C1 : cos (x + 2 * PI) = cos x) by (replace (x + 2 * PI) with (x + 2 * INR 1 * PI) by (cbn; ring); apply cos_period).
  assert (S2 : sin (2 * (x + 2 * PI)) = sin (2 * x)) by (replace (2 * (x + 2 * PI)) with (2 * x + 2 * INR 2 * PI) by (cbn; ring); apply sin_period).
  assert (C2 : cos (2 * (x + 2 * PI)) = cos (2 * x)) by (replace (2 * (x + 2 * PI)) with (2 * x + 2 * INR 2 * PI) by (cbn; ring); apply cos_period).
  assert (S3 : sin (3 * (x + 2 * PI)) = sin (3 * x)) by (replace (3 * (x + 2 * PI)) with (3 * x + 2 * INR 3 * PI) by (cbn; ring); apply sin_period).
  assert (C3 : cos (3 * (x + 2 * PI)) = cos (3 * x)) by (replace (3 * (x + 2 * PI)) with (3 * x + 2 * INR 3 * PI) by (cbn; ring); apply cos_period).
  unfold seasonality. rewrite S1, C1, S2, C2, S3, C3. reflexivity.
Qed.

Lemma Q2R_inject z : Q2R (inject_Z z) = IZR z.
Proof. unfold Q2R, inject_Z. cbn. rewrite Rinv_1. ring. Qed.

Lemma transform_period n x : (0 < n)%nat ->
  transform_X (1 / INR n) (x + inject_Z (Z.of_nat n)) = transform_X (1 / INR n) x + 2 * PI.
Proof.
  intro H. unfold transform_X. rewrite Q2R_plus. rewrite Q2R_inject. rewrite <- INR_IZR_INZ.
  field. apply not_0_INR. lia.
Qed.

Lemma seasonal_fit_frequency cf off X y st : seasonal_fit cf off X y = Some st -> frequency st = 1 / INR (length X).
Proof.
  unfold seasonal_fit. destruct (cf _ _ _); intro H; inversion H; reflexivity.
Qed.

Lemma seasonal_periodic order cf off fb X y st x : X <> [] -> seasonal_fit cf off X y = Some st ->
  seasonal_predict (seasonality order) fb st (x + inject_Z (Z.of_nat (length X))) = seasonal_predict (seasonality order) fb st x.
Proof.
  intros NE F. unfold seasonal_predict. rewrite (seasonal_fit_frequency _ _ _ _ _ F).
  destruct (params st); [|reflexivity].
  rewrite transform_period by (destruct X; [congruence|cbn; lia]). apply seasonality_period.
Qed.

(** Sums of sines and cosines over a whole period. *)
Definition bins_sum (n : nat) (f : nat -> R) : R := sumR (map f (seq 0 n)).

Lemma sum_sin_telescope t n : 2 * sin (t / 2) * bins_sum n (fun j => sin (INR j * t)) = cos (t / 2) - cos (INR n * t - t / 2).
Proof.
  unfold bins_sum. induction n as [|n IH].
  - cbn [seq map sumR INR]. rewrite Rmult_0_l, Rminus_0_l, cos_neg. ring.
  - rewrite sum_S, Rmult_plus_distr_l, IH. rewrite S_INR.
    replace ((INR n + 1) * t - t / 2) with (INR n * t + t / 2) by field. rewrite cos_plus, cos_minus. ring.
Qed.
Lemma sum_cos_telescope t n : 2 * sin (t / 2) * bins_sum n (fun j => cos (INR j * t)) = sin (INR n * t - t / 2) + sin (t / 2).
Proof.
  unfold bins_sum. induction n as [|n IH].
  - cbn [seq map sumR INR]. rewrite Rmult_0_l, Rminus_0_l, sin_neg. ring.
  - rewrite sum_S, Rmult_plus_distr_l, IH. rewrite S_INR.
    replace ((INR n + 1) * t - t / 2) with (INR n * t + t / 2) by field. rewrite sin_plus, sin_minus. ring.
Qed.

Lemma half_angle k n : (0 < k < n)%nat -> 0 < sin (INR k * (2 * PI / INR n) / 2).
Proof.
  intro H. assert (0 < INR k) by (apply lt_0_INR; lia). assert (Lt : INR k < INR n) by (apply lt_INR; lia).
  pose proof PI_RGT_0.
  replace (INR k * (2 * PI / INR n) / 2) with (PI * (INR k / INR n)) by (field; lra).
  assert (0 < INR k / INR n < 1).
  { split; [apply Rdiv_lt_0_compat; lra|]. apply (Rmult_lt_reg_r (INR n)); [lra|]. unfold Rdiv. rewrite Rmult_assoc, Rinv_l by lra. lra. }
  apply sin_gt_0; nra.
Qed.

Lemma harmonic_sums k n : (0 < k < n)%nat ->
  bins_sum n (fun j => sin (INR k * (2 * PI * INR j * (1 / INR n)))) = 0 /\
  bins_sum n (fun j => cos (INR k * (2 * PI * INR j * (1 / INR n)))) = 0.
Proof.
  intro H. pose proof (half_angle k n H) as P. set (t := INR k * (2 * PI / INR n)) in *.
  assert (Nn : INR n <> 0) by (apply not_0_INR; lia).
  assert (E : INR n * t - t / 2 = - (t / 2) + 2 * INR k * PI) by (unfold t; field; exact Nn).
  assert (EJ : forall j, INR k * (2 * PI * INR j * (1 / INR n)) = INR j * t) by (intro j; unfold t; field; exact Nn).
  assert (X1 : bins_sum n (fun j => sin (INR k * (2 * PI * INR j * (1 / INR n)))) = bins_sum n (fun j => sin (INR j * t))).
  { unfold bins_sum. apply sumR_map_ext. intro j. now rewrite EJ. }
  assert (X2 : bins_sum n (fun j => cos (INR k * (2 * PI * INR j * (1 / INR n)))) = bins_sum n (fun j => cos (INR j * t))).
  { unfold bins_sum. apply sumR_map_ext. intro j. now rewrite EJ. }
  rewrite X1, X2. split.
  - pose proof (sum_sin_telescope t n) as S. rewrite E, cos_period, cos_neg in S.
    assert (Z : 2 * sin (t / 2) * bins_sum n (fun j => sin (INR j * t)) = 0) by lra.
    apply Rmult_integral in Z. destruct Z; [lra|assumption].
  - pose proof (sum_cos_telescope t n) as S. rewrite E, sin_period, sin_neg in S.
    assert (Z : 2 * sin (t / 2) * bins_sum n (fun j => cos (INR j * t)) = 0) by lra.
    apply Rmult_integral in Z. destruct Z; [lra|assumption].
Qed.

Lemma seasonal_zero_mean order cf fb X y st : (1 <= order <= 3)%nat -> (order < length X)%nat ->
  (forall xs ys sigma par, cf xs ys sigma = Fitted par -> length par = (2 * order + 1)%nat) ->
  seasonal_fit cf true X y = Some st -> params st <> None ->
  exists f, (forall j, seasonal_predict (seasonality order) fb st (inject_Z (Z.of_nat j)) = Some (f j)) /\
    sumR (map f (seq 0 (length X))) = 0.
Proof.
  intros H3 H HL F NP. pose proof (seasonal_fit_frequency _ _ _ _ _ F) as FR.
  assert (P : exists par, params st = Some (set_first par 0) /\ length par = (2 * order + 1)%nat).
  { unfold seasonal_fit in F. destruct (cf _ _ _) eqn:EC; inversion F; subst; [|cbn in NP; congruence].
    eexists. split; [reflexivity|]. eapply HL. exact EC. }
  destruct P as (par & EP & LP). clear HL. unfold seasonal_predict. rewrite EP, FR.
  set (n := length X) in *.
  assert (TX : forall j, transform_X (1 / INR n) (inject_Z (Z.of_nat j)) = 2 * PI * INR j * (1 / INR n)).
  { intro j. unfold transform_X. rewrite Q2R_inject, <- INR_IZR_INZ. reflexivity. }
  assert (HS : forall k, (0 < k <= order)%nat -> 
    sumR (map (fun j => sin (INR k * (2 * PI * INR j * (1 / INR n)))) (seq 0 n)) = 0 /\
    sumR (map (fun j => cos (INR k * (2 * PI * INR j * (1 / INR n)))) (seq 0 n)) = 0).
  { intros k Hk. apply (harmonic_sums k n). lia. }
  assert (N1 : (1 <= order)%nat -> sumR (map (fun j => sin (2 * PI * INR j * (1 / INR n))) (seq 0 n)) = 0 /\
    sumR (map (fun j => cos (2 * PI * INR j * (1 / INR n))) (seq 0 n)) = 0).
  { intro Ho. destruct (HS 1%nat) as [A B]; [lia|]. split; [rewrite <- A|rewrite <- B]; apply sumR_map_ext; intro j; cbn [INR]; now rewrite Rmult_1_l. }
  assert (N2 : (2 <= order)%nat -> sumR (map (fun j => sin (2 * (2 * PI * INR j * (1 / INR n)))) (seq 0 n)) = 0 /\
    sumR (map (fun j => cos (2 * (2 * PI * INR j * (1 / INR n)))) (seq 0 n)) = 0).
  { intro Ho. destruct (HS 2%nat) as [A B]; [lia|]. change (INR 2) with (1 + 1) in A, B. replace (1 + 1) with 2 in A, B by lra. now split. }
  assert (N3 : (3 <= order)%nat -> sumR (map (fun j => sin (3 * (2 * PI * INR j * (1 / INR n)))) (seq 0 n)) = 0 /\
    sumR (map (fun j => cos (3 * (2 * PI * INR j * (1 / INR n)))) (seq 0 n)) = 0).
  { intro Ho. destruct (HS 3%nat) as [A B]; [lia|]. change (INR 3) with (1 + 1 + 1) in A, B. replace (1 + 1 + 1) with 3 in A, B by lra. now split. }
  destruct order as [|[|[|[|order]]]]; [lia| | | |lia].
  - destruct par as [|c [|s1 [|c1 [|? par]]]]; try discriminate LP.
    exists (fun j => s1 * sin (2 * PI * INR j * (1 / INR n)) + c1 * cos (2 * PI * INR j * (1 / INR n))). split.
    + intro j. rewrite TX. cbn [set_first seasonality]. f_equal. ring.
    + destruct N1 as [A B]; [lia|]. rewrite sumR_map_add, !sumR_map_scale, A, B. ring.
  - destruct par as [|c [|s1 [|c1 [|s2 [|c2 [|? par]]]]]]; try discriminate LP.
    exists (fun j => (s1 * sin (2 * PI * INR j * (1 / INR n)) + c1 * cos (2 * PI * INR j * (1 / INR n))) +
                     (s2 * sin (2 * (2 * PI * INR j * (1 / INR n))) + c2 * cos (2 * (2 * PI * INR j * (1 / INR n))))). split.
    + intro j. rewrite TX. cbn [set_first seasonality]. f_equal. ring.
    + destruct N1 as [A B]; [lia|]. destruct N2 as [A2 B2]; [lia|].
      rewrite !sumR_map_add, !sumR_map_scale, A, B, A2, B2. ring.
  - destruct par as [|c [|s1 [|c1 [|s2 [|c2 [|s3 [|c3 [|? par]]]]]]]]; try discriminate LP.
    exists (fun j => (s1 * sin (2 * PI * INR j * (1 / INR n)) + c1 * cos (2 * PI * INR j * (1 / INR n))) +
                     (s2 * sin (2 * (2 * PI * INR j * (1 / INR n))) + c2 * cos (2 * (2 * PI * INR j * (1 / INR n)))) +
                     (s3 * sin (3 * (2 * PI * INR j * (1 / INR n))) + c3 * cos (3 * (2 * PI * INR j * (1 / INR n))))). split.
    + intro j. rewrite TX. cbn [set_first seasonality]. f_equal. ring.
    + destruct N1 as [A B]; [lia|]. destruct N2 as [A2 B2]; [lia|]. destruct N3 as [A3 B3]; [lia|].
      rewrite !sumR_map_add, !sumR_map_scale, A, B, A2, B2, A3, B3. ring.
Qed.

Lemma seasonal_not_converged order cf off fb X y :
  (forall xs ys sigma, cf xs ys sigma = FitTypeError) ->
  exists st, seasonal_fit cf off X y = Some st /\ forall x, seasonal_predict (seasonality order) fb st x = Some fb.
Proof.
  intro H. unfold seasonal_fit. rewrite H. eexists. split; [reflexivity|]. intro x. unfold seasonal_predict. cbn. f_equal. ring.
Qed.
Lemma seasonal_runtime_error : exists cf, forall off X y, seasonal_fit cf off X y = None.
Proof. exists (fun _ _ _ => FitRuntimeError). reflexivity. Qed.

(** ** Lasso *)
Lemma sin_2PI_plus x : sin (x + 2 * PI) = sin x.
Proof. replace (x + 2 * PI) with (x + 2 * INR 1 * PI) by (cbn; ring). apply sin_period. Qed.
Lemma cos_2PI_plus x : cos (x + 2 * PI) = cos x.
Proof. replace (x + 2 * PI) with (x + 2 * INR 1 * PI) by (cbn; ring). apply cos_period. Qed.

Lemma lasso_period min_days lasso X y st x : lasso_fit min_days lasso X y = st -> ~ (fst st == 0)%Q ->
  lasso_predict st (x + fst st) = lasso_predict st x.
Proof.
  intros _ N. unfold lasso_predict. destruct (snd st) as [coef|]; [|reflexivity]. f_equal. f_equal.
  unfold prepare_X. assert (NR : Q2R (fst st) <> 0).
  { intro E. apply N. apply eqR_Qeq. rewrite E. unfold Q2R. cbn. lra. }
  replace (2 * PI * Q2R (x + fst st) / Q2R (fst st)) with (2 * PI * Q2R x / Q2R (fst st) + 2 * PI).
  - rewrite sin_2PI_plus, cos_2PI_plus. reflexivity.
  - rewrite Q2R_plus. field. exact NR.
Qed.

Definition lasso_rows : list srow := map (fun x => bin x 1) [0%Z; 1%Z; 2%Z; 3%Z; 4%Z].
(** The period is the number of the last bin, not the number of bins. *)
Lemma lasso_wrong_period : exists X y min_days lasso,
  bins_of [Z.of_nat (length X)] X /\ length X = length y /\
  let st := lasso_fit min_days lasso X y in
  lasso_predict st 0 = lasso_predict st (inject_Z (Z.of_nat (length X - 1))) /\
  lasso_predict st 0 <> lasso_predict st (inject_Z (Z.of_nat (length X))).
Proof.
  exists lasso_rows, [0; 1; 0; -1; 0], 5%nat, (fun _ _ => [1; 0; 0; 0]).
  split; [|split; [reflexivity|]].
  - unfold bins_of. change (arange_multi [Z.of_nat (length lasso_rows)]) with [[0%Z]; [1%Z]; [2%Z]; [3%Z]; [4%Z]].
    unfold lasso_rows. cbn [map]. repeat (constructor; [now apply holds_one|]). constructor.
  - assert (E : lasso_fit 5 (fun _ _ => [1; 0; 0; 0]) lasso_rows [0; 1; 0; -1; 0] = (inject_Z 4, Some [1; 0; 0; 0])) by reflexivity.
    rewrite E. cbv zeta. change (length lasso_rows) with 5%nat. cbn [Nat.sub].
    unfold lasso_predict, prepare_X. cbn [snd fst map2 sumR].
    change (inject_Z (Z.of_nat 4)) with (inject_Z 4). change (inject_Z (Z.of_nat 5)) with (inject_Z 5).
    change 0%Q with (inject_Z 0). rewrite !Q2R_inject.
    replace (2 * PI * 0 / 4) with 0 by field. replace (2 * PI * 4 / 4) with (2 * PI) by field.
    replace (2 * PI * 5 / 4) with (PI / 2 + 2 * PI) by field.
    rewrite sin_2PI_plus, cos_2PI_plus, sin_PI2, cos_PI2, sin_0, cos_0, sin_2PI, cos_2PI.
    split; [lra|]. intro H. lra.
Qed.

(** ** Polynomials *)
Lemma poly_snoc c a x : poly (c ++ [a]) x = poly c x + a * x ^ length c.
Proof. induction c as [|b c IH]; cbn [app poly length pow]; [ring|]. rewrite IH. ring. Qed.
Lemma horner c x : forall acc, fold_left (fun acc a => acc * x + a) c acc = poly (rev c) x + acc * x ^ length c.
Proof.
  induction c as [|a c IH]; intro acc; cbn [fold_left rev length pow]; [cbn; ring|].
  rewrite IH, poly_snoc, rev_length. ring.
Qed.
Lemma polyval_poly c x : polyval c x = poly (rev c) x.
Proof. unfold polyval. rewrite horner. ring. Qed.

(** The points as weighted by polyfit. *)
Definition polyfit_points (X : list srow) (y : list R) : list point :=
  map2 (fun r v => {| p_x := coordinate r; p_y := v; p_w := / (r_u r) ^ 4 |}) X y.

Lemma polyfit_error_points X y c : usable_rows X -> length X = length y ->
  polyfit_error (fit_abscissae X) y (fit_weights X) c = squared_error (polyfit_points X y) (poly (rev c)).
Proof.
  intros U L. unfold fit_abscissae. rewrite (coordinate_first X U). destruct U as (_ & _ & H).
  unfold polyfit_error, fit_weights, squared_error, polyfit_points.
  revert y L. induction X as [|r X IH]; intros [|v y] L; try discriminate; [reflexivity|].
  cbn [map combine map2 sumR fst snd p_w p_y p_x]. rewrite (IH ltac:(intros r' I; apply H; now right) y) by (now injection L).
  f_equal. rewrite polyval_poly. destruct (H r (or_introl eq_refl)) as [_ P]. field. lra.
Qed.

Lemma polyfit_points_proper X y : usable_rows X -> length X = length y -> proper (polyfit_points X y).
Proof.
  intros (NE & ND & H) L. unfold polyfit_points.
  assert (E : map p_x (map2 (fun r v => {| p_x := coordinate r; p_y := v; p_w := / (r_u r) ^ 4 |}) X y) = map coordinate X).
  { clear -L. revert y L. induction X as [|r X IH]; intros [|v y] L; try discriminate; [reflexivity|]. cbn. f_equal. apply IH. now injection L. }
  split; [|split].
  - destruct X, y; try discriminate; congruence.
  - now rewrite E.
  - clear NE ND E. revert y L. induction X as [|r X IH]; intros [|v y] L p I; try discriminate; [destruct I|].
    destruct I as [<-|I].
    + cbn [p_w]. apply Rinv_0_lt_compat. apply pow_lt. apply H. now left.
    + apply (IH ltac:(intros r' I'; apply H; now right) y); [now injection L|exact I].
Qed.
Lemma polyfit_points_length X y : length X = length y -> length (polyfit_points X y) = length X.
Proof. unfold polyfit_points. revert y. induction X as [|r X IH]; intros [|v y] L; try discriminate; [reflexivity|]. cbn. f_equal. apply IH. now injection L. Qed.

(** A minimiser is the least-squares polynomial. *)
Lemma minimiser_unique pts m c : proper pts -> (1 <= m <= length pts)%nat -> length c = m ->
  (forall c', length c' = m -> squared_error pts (poly c) <= squared_error pts (poly c')) -> least_squares pts m c.
Proof.
  intros PR H L M. destruct (est_least pts PR m) as (c0 & _ & L0 & H0); [lia|lia|].
  split; [exact L|]. intros c' L'. split; [now apply M|]. intros Hle x.
  destruct (H0 c L) as [A1 A2]. destruct (H0 c' L') as [B1 B2].
  pose proof (M c0 L0). rewrite (B2 ltac:(lra)), (A2 ltac:(lra)). reflexivity.
Qed.

Lemma polynomial_fit_least k X y c : usable_rows X -> length X = length y -> (k < length X)%nat ->
  polynomial_fit k X y c -> least_squares (polyfit_points X y) (S k) (rev c).
Proof.
  intros U L Hk [Lc M]. apply minimiser_unique.
  - now apply polyfit_points_proper.
  - rewrite polyfit_points_length by exact L. lia.
  - now rewrite rev_length.
  - intros c' Lc'. rewrite <- (rev_involutive c'). rewrite <- !polyfit_error_points by assumption. apply M. now rewrite rev_length.
Qed.

Lemma points_in X y p : In p (polyfit_points X y) -> exists i r v, nth_error X i = Some r /\ nth_error y i = Some v /\ p_x p = coordinate r /\ p_y p = v.
Proof.
  unfold polyfit_points. revert y. induction X as [|r X IH]; intros [|v y] I; try (destruct I; fail).
  destruct I as [<-|I]; [exists 0%nat, r, v; cbn; auto|]. destruct (IH y I) as (i & r' & v' & H). exists (S i), r', v'. exact H.
Qed.

Lemma polynomial_exact k X y c c0 : usable_rows X -> length X = length y -> (k < length X)%nat ->
  polynomial_fit k X y c -> (length c0 <= S k)%nat ->
  (forall i r v, nth_error X i = Some r -> nth_error y i = Some v -> v = poly c0 (coordinate r)) ->
  forall x, polyval c x = poly c0 x.
Proof.
  intros U L Hk F L0 Y x. rewrite polyval_poly.
  apply (least_squares_exact (polyfit_points X y) (S k) (rev c) c0); [now apply polyfit_points_proper|now apply polynomial_fit_least|exact L0|].
  intros p I. destruct (points_in X y p I) as (i & r & v & A & B & -> & ->). now apply (Y i).
Qed.

(** With equal uncertainties the fit is weighted by the inverse variance. *)
Lemma equal_uncertainties k X y c s : usable_rows X -> length X = length y -> (k < length X)%nat ->
  (forall r, In r X -> r_u r = s) -> polynomial_fit k X y c -> least_squares (points_of X y) (S k) (rev c).
Proof.
  intros U L Hk Es F. pose proof (polynomial_fit_least k X y c U L Hk F) as [Lc M].
  assert (Ps : 0 < s).
  { destruct U as (NE & _ & H). destruct X as [|r X]; [congruence|]. rewrite <- (Es r (or_introl eq_refl)). apply H. now left. }
  assert (SE : forall f, squared_error (points_of X y) f = s ^ 2 * squared_error (polyfit_points X y) f).
  { intro f. unfold squared_error, points_of, polyfit_points. clear - Es L Ps. revert y L.
    induction X as [|r X IH]; intros [|v y] L; try discriminate; cbn [map2 map sumR]; [ring|].
    rewrite (IH ltac:(intros; apply Es; now right) y) by (now injection L). cbn [p_w p_y p_x]. rewrite (Es r (or_introl eq_refl)). field. lra. }
  split; [exact Lc|]. intros c' Lc'. rewrite !SE. assert (0 < s ^ 2) by (apply pow_lt; exact Ps).
  destruct (M c' Lc') as [M1 M2]. split; [apply Rmult_le_compat_l; lra|].
  intro Hle. apply M2. apply (Rmult_le_reg_l (s ^ 2)); lra.
Qed.

(** In general it is not. *)
Definition two_rows : list srow :=
  [{| r_x := [Fin 0]; r_w := 1; r_u := 1 |}; {| r_x := [Fin 1]; r_w := 1; r_u := 2 |}].
Lemma two_usable : usable_rows two_rows.
Proof.
  split; [discriminate|]. split.
  - unfold two_rows, coordinate, Q2R. cbn. repeat constructor; cbn; intuition lra.
  - intros r [<-|[<-|[]]]; (split; [cbn; eauto|cbn; lra]).
Qed.
Lemma not_inverse_variance : exists k X y c, usable_rows X /\ length X = length y /\ (k < length X)%nat /\
  polynomial_fit k X y c /\ ~ least_squares (points_of X y) (S k) (rev c).
Proof.
  exists 0%nat, two_rows, [0; 1], [1 / 17].
  split; [exact two_usable|]. split; [reflexivity|]. split; [cbn; lia|]. split.
  - split; [reflexivity|]. intros [|c' [|? ?]] Lc'; try discriminate.
    unfold polyfit_error, fit_abscissae, fit_weights, polyval. cbn [map map2 combine two_rows r_u fst snd fold_left sumR].
    assert (0 <= (17 * c' - 1) ^ 2) by (apply pow2_ge_0). cbn [pow] in *. nra.
  - intros [_ M]. destruct (M [1 / 5] eq_refl) as [A _].
    unfold squared_error, points_of in A. cbn in A. lra.
Qed.

(** A line that must not fall. *)
Lemma linear_monotone X y c x1 x2 : linear_fit true X y c -> x1 <= x2 -> polyval c x1 <= polyval c x2.
Proof.
  unfold linear_fit. intros (c1 & [L1 _] & H) Hx. cbn [andb] in H.
  assert (Const : forall c, length c = 1%nat -> polyval c x1 <= polyval c x2).
  { intros [|a [|? ?]] L; try discriminate. unfold polyval. cbn. lra. }
  destruct (Rltb (hd 0 c1) 0) eqn:E.
  - apply Const. apply H.
  - subst c. apply Rltb_false in E. destruct (Nat.leb (length X) 1).
    + now apply Const.
    + destruct c1 as [|a [|b [|? ?]]]; try discriminate. unfold polyval. cbn in *. nra.
Qed.

Lemma linear_is_polynomial X y c : (2 <= length X)%nat -> linear_fit false X y c <-> polynomial_fit 1 X y c.
Proof.
  intro L. unfold linear_fit. rewrite (proj2 (Nat.leb_gt (length X) 1)) by lia. cbn [andb]. split.
  - now intros (c1 & H & ->).
  - intro H. exists c. auto.
Qed.

(** A fit exists. *)
Lemma polynomial_fit_exists k X y : usable_rows X -> length X = length y -> (k < length X)%nat -> exists c, polynomial_fit k X y c.
Proof.
  intros U L Hk. pose proof (polyfit_points_proper X y U L) as PR. pose proof (polyfit_points_length X y L) as LP.
  destruct (est_least _ PR (S k)) as (c & _ & Lc & M); [lia|lia|]. exists (rev c). split; [now rewrite rev_length|].
  intros c' Lc'. rewrite !polyfit_error_points by assumption. rewrite rev_involutive. apply M. now rewrite rev_length.
Qed.

(** ** Least-squares contract of the seasonal fit *)
Lemma seasonality_curve order par x : (1 <= order <= 3)%nat -> length par = (2 * order + 1)%nat ->
  seasonality order x par = Some (season_curve par x).
Proof.
  intros H L. unfold season_curve. destruct order as [|[|[|[|order]]]]; [lia| | | |lia]; cbn in L.
  - destruct par as [|c [|s1 [|c1 [|? par]]]]; try discriminate L. cbn [seasonality hd tl harmonics]. f_equal.
    change (INR 1) with 1. rewrite !Rmult_1_l. ring.
  - destruct par as [|c [|s1 [|c1 [|s2 [|c2 [|? par]]]]]]; try discriminate L. cbn [seasonality hd tl harmonics]. f_equal.
    change (INR 1) with 1. replace (INR 2) with 2 by (cbn; lra). rewrite !Rmult_1_l. ring.
  - destruct par as [|c [|s1 [|c1 [|s2 [|c2 [|s3 [|c3 [|? par]]]]]]]]; try discriminate L. cbn [seasonality hd tl harmonics]. f_equal.
    change (INR 1) with 1. replace (INR 2) with 2 by (cbn; lra). replace (INR 3) with 3 by (cbn; lra). rewrite !Rmult_1_l. ring.
Qed.

Lemma curve_error_nonneg xs ys sigma par : 0 <= curve_error xs ys sigma par.
Proof. apply sumR_nonneg. intros. apply pow2_ge_0. Qed.

Lemma nth_triple (xs ys l : list R) : forall j a b s, nth_error (combine xs (combine ys l)) j = Some (a, (b, s)) ->
  nth_error xs j = Some a /\ nth_error ys j = Some b.
Proof.
  revert ys l. induction xs as [|a0 xs IH]; intros [|b0 ys] [|s0 l] [|j] a b s; cbn; try discriminate.
  - intro J. injection J as <- <- <-. auto.
  - intro J. destruct (IH ys l j a b s J). auto.
Qed.

Lemma season_training order cf fb X y st par0 : (1 <= order <= 3)%nat -> fits_curve order cf ->
  length X = length y -> (forall r, In r X -> 0 < r_u r) -> length par0 = (2 * order + 1)%nat ->
  (forall i r v, nth_error X i = Some r -> nth_error y i = Some v ->
     v = season_curve par0 (2 * PI * Q2R (first_coordinate (r_x r)) / INR (length X))) ->
  seasonal_fit cf false X y = Some st -> params st <> None ->
  forall i r v, nth_error X i = Some r -> nth_error y i = Some v ->
    seasonal_predict (seasonality order) fb st (first_coordinate (r_x r)) = Some v.
Proof.
  intros H3 C L U L0 Y F NP i r v Hr Hv. unfold seasonal_fit in F. cbv zeta in F.
  set (fq := 1 / INR (length X)) in *. set (xs := map (fun r => transform_X fq (first_coordinate (r_x r))) X) in *.
  specialize (C xs y (map r_u X)). destruct (cf xs y (map r_u X)) as [par| |]; inversion F; subst st; [|cbn in NP; congruence].
  destruct C as (_ & LP & M). unfold seasonal_predict. cbn [params frequency]. rewrite seasonality_curve by assumption. f_equal.
  assert (Z0 : curve_error xs y (map r_u X) par0 = 0).
  { unfold curve_error. rewrite (sumR_map_ext_in _ (fun _ => 0)); [apply sumR_map_zero|].
    intros [a [b s]] I. cbn [fst snd]. apply In_nth_error in I. destruct I as [j J].
    assert (J1 : nth_error xs j = Some a /\ nth_error y j = Some b).
    { exact (nth_triple xs y (map r_u X) j a b s J). }
    destruct J1 as [J1 J2]. unfold xs in J1. rewrite nth_error_map in J1. destruct (nth_error X j) as [rj|] eqn:Ej; [|discriminate]. injection J1 as <-.
    rewrite (Y j rj b Ej J2). unfold transform_X, fq.
    replace (2 * PI * Q2R (first_coordinate (r_x rj)) * (1 / INR (length X))) with (2 * PI * Q2R (first_coordinate (r_x rj)) / INR (length X)) by (unfold Rdiv; ring).
    unfold Rdiv. ring. }
  specialize (M par0 L0). rewrite Z0 in M.
  pose proof (sumR_zero_all (fun t : R * (R * R) => ((fst (snd t) - season_curve par (fst t)) / snd (snd t)) ^ 2) (combine xs (combine y (map r_u X)))
    ltac:(intros; apply pow2_ge_0) M) as A.
  assert (I : In (transform_X fq (first_coordinate (r_x r)), (v, r_u r)) (combine xs (combine y (map r_u X)))).
  { clear - Hr Hv. unfold xs. revert y i Hr Hv. generalize fq. intro q. induction X as [|r0 X IH]; intros y [|i] Hr Hv; try discriminate; destruct y as [|v0 y]; try discriminate.
    - injection Hr as ->. injection Hv as ->. now left.
    - right. now apply (IH y i). }
  specialize (A _ I). cbn [fst snd] in A. assert (A' : ((v - season_curve par (transform_X fq (first_coordinate (r_x r)))) / r_u r) = 0) by (cbn [pow] in A; nra).
  assert (P : 0 < r_u r) by (apply U; eapply nth_error_In; exact Hr).
  apply (f_equal (fun z => z * r_u r)) in A'. unfold Rdiv in A'. rewrite Rmult_assoc, Rinv_l in A' by lra. lra.
Qed.

(** ** Concrete cases *)
Definition exact_cf (par : list R) (xs ys sigma : list R) : curve_outcome :=
  if Nat.leb (length par) (length xs) then
    if list_eq_dec Req_EM_T ys (map (season_curve par) xs) then Fitted par else FitTypeError
  else FitTypeError.
Lemma exact_fits order par : length par = (2 * order + 1)%nat -> fits_curve order (exact_cf par).
Proof.
  intros L xs ys sigma. unfold exact_cf. destruct (Nat.leb_spec (length par) (length xs)) as [H|H]; [|exact I].
  destruct (list_eq_dec _ _ _) as [->|]; [|exact I]. split; [lia|]. split; [exact L|]. intros par' _.
  replace (curve_error xs (map (season_curve par) xs) sigma par) with 0; [apply curve_error_nonneg|].
  symmetry. unfold curve_error. rewrite (sumR_map_ext_in _ (fun _ => 0)); [apply sumR_map_zero|].
  intros [a [b s]] I. cbn [fst snd]. apply In_nth_error in I. destruct I as [j J]. apply nth_triple in J. destruct J as [J1 J2].
  rewrite (map_nth_error _ j xs J1) in J2. injection J2 as <-. unfold Rdiv. ring.
Qed.
Lemma ex_season : exists X y cf st, fits_curve 1 cf /\ length X = 4%nat /\ length X = length y /\
  bins_of [4%Z] X /\ (forall r, In r X -> 0 < r_u r) /\
  seasonal_fit cf true X y = Some st /\ params st <> None /\
  (forall i r v, nth_error X i = Some r -> nth_error y i = Some v ->
     v = season_curve [0; 1; 0] (2 * PI * Q2R (first_coordinate (r_x r)) / INR (length X))).
Proof.
  set (X := map (fun x => bin x 1) [0%Z; 1%Z; 2%Z; 3%Z]).
  set (f := fun r => season_curve [0; 1; 0] (transform_X (1 / INR (length X)) (first_coordinate (r_x r)))).
  exists X, (map f X), (exact_cf [0; 1; 0]).
  assert (E : exists st, seasonal_fit (exact_cf [0; 1; 0]) true X (map f X) = Some st /\ params st <> None).
  { unfold seasonal_fit, exact_cf. cbv zeta. rewrite map_map. fold f.
    rewrite (proj2 (Nat.leb_le _ _)) by (rewrite map_length; cbn; lia).
    destruct (list_eq_dec _ _ _) as [_|N]; [|exfalso; apply N; reflexivity].
    eexists. split; [reflexivity|]. discriminate. }
  destruct E as (st & E1 & E2). exists st. split; [now apply exact_fits|]. split; [reflexivity|]. split; [now rewrite map_length|].
  split; [|split; [|split; [exact E1|split; [exact E2|]]]].
  - unfold bins_of, X. change (arange_multi [4%Z]) with [[0%Z]; [1%Z]; [2%Z]; [3%Z]]. cbn [map]. repeat (constructor; [now apply holds_one|]). constructor.
  - intros r I. unfold X in I. apply in_map_iff in I. destruct I as (z & <- & _). cbn. lra.
  - intros i r v Hr Hv. rewrite (map_nth_error _ i X Hr) in Hv. injection Hv as <-. unfold f, transform_X. f_equal. unfold Rdiv. ring.
Qed.
Lemma ex_linear : exists c, linear_fit true two_rows [1; 0] c.
Proof.
  destruct (polynomial_fit_exists 1 two_rows [1; 0] two_usable eq_refl ltac:(cbn; lia)) as [c1 H1].
  destruct (polynomial_fit_exists 0 two_rows [1; 0] two_usable eq_refl ltac:(cbn; lia)) as [c0 H0].
  unfold linear_fit. change (Nat.leb (length two_rows) 1) with false. cbv iota. cbn [andb].
  destruct (Rltb (hd 0 c1) 0) eqn:E; [exists c0|exists c1]; exists c1; (split; [exact H1|]); rewrite E; auto.
Qed.
Lemma season_zero_mean order cf fb X y st : (1 <= order <= 3)%nat -> fits_curve order cf ->
  seasonal_fit cf true X y = Some st -> params st <> None ->
  exists f, (forall j, seasonal_predict (seasonality order) fb st (inject_Z (Z.of_nat j)) = Some (f j)) /\
    sumR (map f (seq 0 (length X))) = 0.
Proof.
  intros H3 C F NP. apply (seasonal_zero_mean order cf fb X y st H3); [| |exact F|exact NP].
  - unfold seasonal_fit in F. cbv zeta in F. specialize (C (map (fun r => transform_X (1 / INR (length X)) (first_coordinate (r_x r))) X) y (map r_u X)).
    destruct (cf _ _ _); inversion F; subst st; [|cbn in NP; congruence]. destruct C as [C _]. rewrite map_length in C. lia.
  - intros xs ys sigma par E. specialize (C xs ys sigma). rewrite E in C. apply C.
Qed.
