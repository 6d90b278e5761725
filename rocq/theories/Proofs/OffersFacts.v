(** The price model learns exponents from rows with a price. *)
From Coq Require Import List Bool Arith Lia Reals Lra QArith Qreals.
From Verif.Model Require Import Num LexBins Train WholeFit Estimators Price PriceFit.
From Verif.Spec Require Import PriceSpec ExponentSpec OffersSpec.
From Verif.Proofs Require Import EstimatorFacts TrainFacts PriceFacts ExponentFacts InsampleFacts.
Import ListNotations.
Local Open Scope R_scope.

Lemma bound_same D D' : same_offers D D' -> map (bound_weight true) D = map (bound_weight true) D'.
Proof.
  induction 1 as [|r r' D D' (P & _ & W) H IH]; cbn; [reflexivity|]. rewrite IH. f_equal. unfold bound_weight, has_price in *. rewrite P.
  destruct (isfinite (q_price r)); [|reflexivity]. symmetry. apply W. reflexivity.
Qed.
(** Rows of the Newton step that differ at most in irrelevant targets. *)
Definition alike_row (r r' : price_row) : Prop :=
  pr_p r = pr_p r' /\ pr_x r = pr_x r' /\ pr_k r = pr_k r' /\ pr_prior r = pr_prior r' /\ pr_s r = pr_s r' /\ pr_lkp r = pr_lkp r' /\
  pr_bin r = pr_bin r' /\ (pr_y r = pr_y r' \/ pr_x r = 0).
Lemma alike_rows a c lex D D' : same_offers D D' -> forall L,
  Forall2 alike_row
    (map2 (fun rl b => exponent_row a c (fst rl) (snd rl) b)
      (combine D (map2 (fun r fe => {| lr_factors := fst fe; lr_prior_exponents := q_exponent r; lr_exponents := snd fe; lr_base := external_base (q_price r) |}) D L)) lex)
    (map2 (fun rl b => exponent_row a c (fst rl) (snd rl) b)
      (combine D' (map2 (fun r fe => {| lr_factors := fst fe; lr_prior_exponents := q_exponent r; lr_exponents := snd fe; lr_base := external_base (q_price r) |}) D' L)) lex).
Proof.
  intro H. revert lex. induction H as [|r r' D D' (P & E & W) H IH]; intros lex L; [constructor|].
  destruct L as [|fe L]; [constructor|]. destruct lex as [|b lex]; [constructor|]. cbn [map2 combine]. constructor; [|apply IH].
  unfold alike_row, exponent_row, external_weight, has_price in *. cbn. rewrite P, E.
  assert (Z : isfinite (q_price r) = false -> external_base (q_price r) = 0) by (destruct (q_price r); [discriminate|reflexivity..]).
  destruct (isfinite (q_price r)).
  - destruct (W eq_refl) as [-> ->]. repeat (split; [reflexivity|]). left. reflexivity.
  - do 4 (split; [reflexivity|]). split; [unfold Rdiv; rewrite !Rmult_0_l; reflexivity|]. do 2 (split; [reflexivity|]). right. apply Z. reflexivity.
Qed.
Lemma alike_map rows rows' (f f' : price_row -> R) : Forall2 alike_row rows rows' -> (forall r r', alike_row r r' -> f r = f' r') -> map f rows = map f' rows'.
Proof. intros F E. induction F as [|r r' l l' A _ IH]; cbn; [reflexivity|]. rewrite IH, (E _ _ A). reflexivity. Qed.
Lemma alike_lex rows rows' : Forall2 alike_row rows rows' -> lex rows = lex rows'.
Proof. intro F. unfold lex. induction F as [|r r' l l' A _ IH]; cbn [map]; [reflexivity|]. rewrite IH. f_equal. apply A. Qed.
Section Alike.
Variables (rows rows' : list price_row) (var_l : R).
Hypothesis H : Forall2 alike_row rows rows'.
Lemma alike_count b : bin_count rows b = bin_count rows' b.
Proof. unfold bin_count. rewrite (alike_lex _ _ H). f_equal. apply (alike_map _ _ _ _ H). reflexivity. Qed.
Lemma alike_jac_data r r' l : alike_row r r' -> jac_data r l = jac_data r' l.
Proof.
  intros (P & X & K & Pr & Sg & Lk & B & Y). unfold jac_data, slope, mu. rewrite P, K, Sg, <- X. destruct Y as [<-|Z]; [reflexivity|]. rewrite Z. ring.
Qed.
Lemma alike_step l b : bin_step rows var_l b l = bin_step rows' var_l b l.
Proof.
  assert (J : jacobian rows var_l b l = jacobian rows' var_l b l).
  { unfold jacobian. rewrite (alike_lex _ _ H). f_equal. apply (alike_map _ _ _ _ H). intros r r' A. rewrite (alike_jac_data _ _ l A). f_equal.
    unfold jac_prior. rewrite alike_count. destruct A as (P & X & K & Pr & Sg & Lk & B & Y). rewrite K, Pr, Lk, B. reflexivity. }
  assert (Hh : hessian rows var_l b l = hessian rows' var_l b l).
  { unfold hessian. rewrite (alike_lex _ _ H). f_equal. apply (alike_map _ _ _ _ H). intros r r' A. unfold hess_data. rewrite (alike_jac_data _ _ l A).
    unfold hess_prior, slope, mu. rewrite alike_count. destruct A as (P & X & K & Pr & Sg & Lk & B & Y). rewrite P, X, K, Sg, Lk, B. reflexivity. }
  unfold bin_step, empty_bin. rewrite (alike_lex _ _ H), J, Hh. reflexivity.
Qed.
Lemma alike_newton ls : newton_step rows var_l ls = newton_step rows' var_l ls.
Proof. unfold newton_step. generalize (seq 0 (length ls)). intro bs. revert ls. induction bs as [|b bs IH]; intros [|l ls]; cbn [map2]; try reflexivity. rewrite alike_step, IH. reflexivity. Qed.
End Alike.

Lemma alike_right g g' n valid : (forall x, g x = g' x) -> forall x, set_right_bound g n x valid = set_right_bound g' n x valid.
Proof. intro E. induction n as [|n IH]; intro x; cbn [set_right_bound]; [reflexivity|]. rewrite E. destruct (existsb _ _); [apply IH|reflexivity]. Qed.
Lemma alike_loop st st' n eps : (forall x, st x = st' x) -> forall bins hs, bisect_loop st n eps bins hs = bisect_loop st' n eps bins hs.
Proof. intro E. induction n as [|n IH]; intros bins hs; cbn [bisect_loop]; [reflexivity|]. cbv zeta. rewrite E. destruct (forallb _ _); [reflexivity|]. rewrite IH. reflexivity. Qed.
Lemma alike_parameters gm rows rows' var_l ws : Forall2 alike_row rows rows' ->
  exponent_parameters gm rows var_l ws = exponent_parameters gm rows' var_l ws.
Proof.
  intro H. unfold exponent_parameters, exponent_bins, newton_bisect. cbv zeta.
  rewrite (alike_right (newton_gradient rows var_l) (newton_gradient rows' var_l)) by (intro x; unfold newton_gradient; rewrite (alike_newton _ _ var_l H); reflexivity).
  rewrite (alike_loop (newton_step rows var_l) (newton_step rows' var_l)) by (intro x; apply alike_newton; exact H). reflexivity.
Qed.
Theorem priced_rows_only gm a c var_l features D D' i p f : nth_error features i = Some f -> f_ext f = true -> same_offers D D' ->
  price_estimates gm a c var_l features D i p = price_estimates gm a c var_l features D' i p.
Proof.
  intros F E H. unfold price_estimates. rewrite F, E. cbv zeta. rewrite (bound_same _ _ H).
  rewrite (alike_parameters gm _ (exponent_rows a c (f_lex f) D' p)) by (apply alike_rows; exact H). reflexivity.
Qed.
Theorem priced_smoothing_only gm a c var_l gs features D D' i p f : nth_error features i = Some f -> f_ext f = true -> same_offers D D' ->
  price_smoothing gm a c var_l gs features D i p = price_smoothing gm a c var_l gs features D' i p.
Proof.
  intros F E H. unfold price_smoothing. rewrite (priced_rows_only gm a c var_l features D D' i p f F E H), F, E, (bound_same _ _ H). reflexivity.
Qed.

(** ** Bins without offers *)
Lemma no_offers_sum : forall lex D b, no_offers lex D b -> bin_total lex (map (bound_weight true) D) b = 0.
Proof.
  induction lex as [|k lex IH]; intros [|r D] b H; cbn [map bin_total]; try reflexivity.
  rewrite IH by (intros q I P; apply H; [right; exact I|exact P]).
  destruct (Nat.eqb_spec k b) as [->|N]; [|lra]. unfold bound_weight. destruct (isfinite (q_price r)) eqn:E; [|lra].
  rewrite (H r); [lra|left; reflexivity|exact E].
Qed.
Lemma invalid_step b s : b_valid b = false /\ b_val b = 1 ->
  (b_valid (check_valid b s) = false /\ b_val (check_valid b s) = 1) /\
  (b_valid (update_bin (check_valid b s) s) = false /\ b_val (update_bin (check_valid b s) s) = 1).
Proof. intros [V U]. unfold update_bin. cbn. rewrite V. cbn. auto. Qed.
Lemma existsb_false : forall l, (forall x, In x l -> x = false) -> existsb (fun b : bool => b) l = false.
Proof. induction l as [|x l IH]; intro H; cbn; [reflexivity|]. rewrite (H x (or_introl eq_refl)). apply IH. intros y Y. apply H. right. exact Y. Qed.
Lemma nth_const {A} (c : R) : forall (ws : list A) b, (b < length ws)%nat -> nth_error (map (fun _ => c) ws) b = Some c.
Proof. intros ws b H. destruct (nth_some _ _ H) as [w W]. rewrite nth_error_map, W. reflexivity. Qed.
Lemma unweighted_one rows var_l ws b w r : exponent_bins rows var_l ws = Some r -> nth_error ws b = Some w -> w <= 0 ->
  nth_error (r_l r) b = Some 1.
Proof.
  intros E W P. unfold exponent_bins in E. assert (Lb : (b < length ws)%nat) by (apply nth_error_Some; congruence).
  destruct (bisect_run _ _ _ _ _ _ _ _ _ E) as (bins' & hs' & E1 & E2 & _ & _ & _).
  set (valid := map (fun w => Rltb 0 w) ws) in *. set (xr := set_right_bound _ _ _ _) in *.
  assert (R2 : forall i, (i < length ws)%nat -> exists k, nth_error xr i = Some (2 * 2 ^ k)).
  { intros i Hi. destruct (nth_some xr i) as [q Q].
    - unfold xr. rewrite right_bound_length; [rewrite map_length; exact Hi|apply newton_gradient_per_bin|unfold valid; rewrite !map_length; reflexivity].
    - unfold xr in Q. destruct (right_bound_scale _ (newton_gradient_per_bin rows var_l) 10 (map (fun _ => 2) ws) valid i 2 q) as [k [_ K]];
        [unfold valid; rewrite !map_length; reflexivity|apply nth_const; exact Hi|exact Q|]. exists k. rewrite <- K. exact Q. }
  assert (Lx : length xr = length ws).
  { unfold xr. rewrite right_bound_length; [apply map_length|apply newton_gradient_per_bin|unfold valid; rewrite !map_length; reflexivity]. }
  destruct (R2 b Lb) as [k K].
  assert (I : nth_error (initial_bins valid (map (fun _ => 0) ws) xr (Some (map (fun _ => 1) ws))) b = Some {| b_valid := false; b_xl := 0; b_xr := 2 * 2 ^ k; b_val := 1 |}).
  { unfold initial_bins. cbv zeta.
    replace (existsb (fun b0 : bool => b0) (map2 Rltb (map (fun _ => 1) ws) (map (fun _ => 0) ws))) with false.
    2:{ symmetry. apply existsb_false. intros x X. apply In_nth_error in X as [i X]. apply nth_map2_inv in X as (u & v & U & V & ->).
        rewrite nth_error_map in U, V. destruct (nth_error ws i); cbn in U, V; [|discriminate]. injection U as <-. injection V as <-. apply Rltb_false. lra. }
    replace (existsb (fun b0 : bool => b0) (map2 Rltb xr (map (fun _ => 1) ws))) with false.
    2:{ symmetry. apply existsb_false. intros x X. apply In_nth_error in X as [i X]. apply nth_map2_inv in X as (u & v & U & V & ->).
        assert (Hi : (i < length ws)%nat) by (rewrite <- Lx; apply nth_error_Some; congruence).
        destruct (R2 i Hi) as [k' K']. rewrite K' in U. injection U as <-. rewrite nth_const in V by exact Hi. injection V as <-.
        apply Rltb_false. pose proof (pow2_ge1 k'). lra. }
    cbn [orb].
    assert (V : nth_error valid b = Some false) by (unfold valid; rewrite nth_error_map, W; cbn; f_equal; apply Rltb_false; exact P).
    exact (nth_map2 (fun vx rl => {| b_valid := fst vx; b_xl := snd vx; b_xr := fst rl; b_val := snd rl |}) _ _ _ _ _
      (nth_combine _ _ _ _ _ V (nth_const 0 ws b Lb)) (nth_combine _ _ _ _ _ K (nth_const 1 ws b Lb))). }
  destruct (loop_track _ (newton_step_per_bin rows var_l) (fun k => b_valid k = false /\ b_val k = 1) b (fun _ k s _ => invalid_step k s)
    _ _ _ _ _ _ _ _ E1 I (conj eq_refl eq_refl)) as [(b' & B1 & _ & B2) _].
  rewrite E2, nth_error_map, B1. cbn. rewrite B2. reflexivity.
Qed.

Lemma loop_count st : (forall l, length (st l) = length l) -> forall n eps bins hs bins' hs' calls,
  bisect_loop st n eps bins hs = (bins', hs', calls) -> (0 < n)%nat -> length hs' = length bins.
Proof.
  intros SL n. induction n as [|n IH]; intros eps bins hs bins' hs' calls H P; [lia|]. cbn [bisect_loop] in H; cbv zeta in H.
  assert (C1 : length (map2 check_valid bins (st (map b_val bins))) = length bins) by (apply len_map2; rewrite SL, map_length; reflexivity).
  destruct (forallb _ _); [injection H as _ <- _; rewrite map_length, SL, map_length; reflexivity|].
  match type of H with context [bisect_loop st n eps ?B ?Hs] => destruct (bisect_loop st n eps B Hs) as [[u v] w] eqn:Q end.
  injection H as _ <- _. destruct n as [|n].
  - cbn in Q. injection Q as _ <- _. rewrite len_map2; [exact C1|]. rewrite C1, SL, map_length. reflexivity.
  - rewrite (IH _ _ _ _ _ _ Q) by lia. rewrite len_map2; [exact C1|]. rewrite C1, SL, map_length. reflexivity.
Qed.
Lemma variances rows var_l ws r : exponent_bins rows var_l ws = Some r -> length (r_variance r) = length ws.
Proof.
  intro E. unfold exponent_bins in E. destruct (bisect_run _ _ _ _ _ _ _ _ _ E) as (bins' & hs' & E1 & _ & -> & _ & P).
  rewrite map_length, (loop_count _ (newton_step_per_bin rows var_l) _ _ _ _ _ _ _ E1 P).
  assert (RL : length (set_right_bound (newton_gradient rows var_l) 10 (map (fun _ : R => 2) ws) (map (fun w => Rltb 0 w) ws)) = length ws)
    by (rewrite (right_bound_length _ (newton_gradient_per_bin rows var_l)); rewrite !map_length; reflexivity).
  revert RL. generalize (set_right_bound (newton_gradient rows var_l) 10 (map (fun _ : R => 2) ws) (map (fun w => Rltb 0 w) ws)). intros x RL.
  unfold initial_bins. cbv zeta. rewrite len_map2; rewrite !combine_length, !map_length; [lia|].
  destruct (_ || _); [rewrite len_map2; rewrite !RL; rewrite ?map_length; lia|rewrite RL, map_length; lia].
Qed.
Lemma moments v : positive_variance v -> exists h, 0 <= h /\ moment_matching 1 v = (h, h).
Proof.
  destruct v as [q| | |]; cbn; intro H; try contradiction; [|exists 0; split; [lra|reflexivity]].
  destruct (Reqb q 0) eqn:Z; [exists 0; split; [lra|reflexivity]|]. exists (1 / q). split; [|f_equal; ring].
  apply Rmult_le_pos; [lra|]. left. apply Rinv_0_lt_compat. exact H.
Qed.
Theorem bins_without_offers gm a c var_l features D i p f b :
  nth_error features i = Some f -> f_ext f = true -> (b <= f_finite f)%nat -> no_offers (f_lex f) D b ->
  exists h, 0 <= h /\ nth_error (fst (price_estimates gm a c var_l features D i p)) b =
    Some (factor_from_posterior gm (h + gamma_alpha_prior) (h + gamma_beta_prior)).
Proof.
  intros F E B N. unfold price_estimates. rewrite F, E. cbv zeta. set (ws := bincounts _ _ _).
  destruct (exponent_range (exponent_rows a c (f_lex f) D p) var_l ws) as (r & R1 & _ & _ & R3).
  unfold exponent_parameters. rewrite R1.
  assert (W : nth_error ws b = Some 0).
  { unfold ws. rewrite <- (no_offers_sum (f_lex f) D b N). apply nth_bincounts. lia. }
  pose proof (unweighted_one _ _ _ _ _ _ R1 W (Rle_refl 0)) as L1.
  destruct (nth_some (r_variance r) b) as [v V]; [rewrite (variances _ _ _ _ R1); apply nth_error_Some; congruence|].
  destruct (moments v) as (h & H0 & M). { rewrite Forall_forall in R3. apply R3. exact (nth_error_In _ _ V). }
  exists h. split; [exact H0|]. unfold calc_factors_and_uncertainties. cbn [fst].
  pose proof (nth_map2 moment_matching _ _ _ _ _ L1 V) as AB. rewrite M in AB.
  apply nth_map2; rewrite !nth_error_map, AB; reflexivity.
Qed.

Definition changed_offers : list price_sample :=
  [{| q_row := {| x_bins := fun _ => []; x_prior := None; x_y := 3; x_w := 2 |}; q_price := Fin (1 # 2); q_exponent := -1 |};
   {| q_row := {| x_bins := fun _ => []; x_prior := None; x_y := 50; x_w := 7 |}; q_price := NaN; q_exponent := -1 |}].
Lemma offers_case : same_offers two_offers changed_offers /\ two_offers <> changed_offers /\
  no_offers [0%nat; 1%nat] two_offers 1 /\ ~ no_offers [0%nat; 1%nat] two_offers 0.
Proof.
  split; [|split; [|split]].
  - apply Forall2_cons; [|apply Forall2_cons; [|apply Forall2_nil]]; (split; [reflexivity|split; [reflexivity|intro H]]); [split; reflexivity|discriminate H].
  - intro E. injection E as E _. lra.
  - intros r [I|[I|[]]] P; [discriminate I|]. injection I as <-. discriminate P.
  - intro H. specialize (H _ (or_introl eq_refl) eq_refl). cbn in H. lra.
Qed.
