(** The stopping criteria only decide when a training stops. *)
From Coq Require Import List Bool Reals Lra Lia.
From Verif.Proofs Require Import TrainFacts TrainExamples.
From Verif.Model Require Import Num LexBins Train Predict Link Quantile LossModes Dispersion Price WholeFit BinFit PriceFit.
From Verif.Spec Require Import StopSpec.
Import ListNotations.
Local Open Scope R_scope.

Section Loop.
Variable cfg : settings.
Variable features : list feature.
Variable estimate : nat -> nat -> preds -> list R.
Variable smoother : nat -> nat -> preds -> list R -> nat -> option R.
Variable calibrate : nat -> list R -> list R.
Variable rate : nat -> nat -> R.
Variable loss : preds -> R.
Let step (k : criteria) := iteration (with_criteria cfg k) features estimate smoother calibrate rate loss.
Let run (k : criteria) := loop (with_criteria cfg k) features estimate smoother calibrate rate loss.

Lemma step_same k k' initial st : step k initial st = step k' initial st.
Proof. reflexivity. Qed.
Lemma step_iter k initial st st' : step k initial st = Ok st' -> t_iter st' = S (t_iter st).
Proof.
  unfold step, iteration. destruct (features_pass _ _ _ _ _ _ _ _ _ _ _ _ _ _) as [[sl p]|e]; [|discriminate].
  cbv zeta. destruct (_ && _); [discriminate|].
  match goal with |- context [match ?b with Ok _ => _ | Raise _ => _ end] => destruct b as [[sl' p']|e] end; [|discriminate].
  intro E. injection E as <-. reflexivity.
Qed.
Lemma finish_ok initial st st' : finish initial st = Ok st' -> st' = st.
Proof. unfold finish. destruct (forallb _ _); [|discriminate]. destruct (_ && _); [discriminate|]. congruence. Qed.
(** The state after [n] more iterations. *)
Fixpoint after (n : nat) (initial : R) (st : state) : option state :=
  match n with
  | 0%nat => Some st
  | S n => match step {| k_iterations := 0; k_factor := 0; k_loss := 0 |} initial st with Ok st' => after n initial st' | Raise _ => None end
  end.
Lemma after_iter n initial : forall st st', after n initial st = Some st' -> t_iter st' = (n + t_iter st)%nat.
Proof.
  induction n as [|n IH]; intros st st' H; cbn [after] in H; [injection H as <-; reflexivity|].
  destruct (step _ initial st) as [s|e] eqn:E; [|discriminate]. rewrite (IH _ _ H), (step_iter _ _ _ _ E). lia.
Qed.
(** A successful training stops at the first state that does not continue. *)
Lemma run_after k fuel initial : forall st st', run k fuel initial st = Some (Ok st') ->
  exists n, after n initial st = Some st' /\ continues (with_criteria cfg k) st' = false /\ finish initial st' = Ok st' /\ (n <= fuel)%nat /\
    forall j s, (j < n)%nat -> after j initial st = Some s -> continues (with_criteria cfg k) s = true.
Proof.
  induction fuel as [|fuel IH]; intros st st' H; unfold run in H; cbn [loop] in H;
    destruct (continues (with_criteria cfg k) st) eqn:C; try discriminate.
  - injection H as H. assert (st' = st) as -> by (eapply finish_ok; exact H). exists 0%nat.
    split; [reflexivity|]. split; [exact C|]. split; [exact H|]. split; [lia|]. intros j s J. lia.
  - fold (step k initial st) in H. destruct (step k initial st) as [s|e] eqn:E; [|discriminate].
    destruct (IH s st' H) as (n & A & C' & F & L & B). exists (S n). split; [|split; [exact C'|split; [exact F|split; [lia|]]]].
    + cbn [after]. rewrite (step_same _ k), E. exact A.
    + intros [|j] s' J A'; cbn [after] in A'; [injection A' as <-; exact C|].
      rewrite (step_same _ k), E in A'. apply (B j s'); [lia|exact A'].
  - injection H as H. assert (st' = st) as -> by (eapply finish_ok; exact H). exists 0%nat.
    split; [reflexivity|]. split; [exact C|]. split; [exact H|]. split; [lia|]. intros j s J. lia.
Qed.
Lemma after_run k fuel initial n : forall st st', after n initial st = Some st' -> continues (with_criteria cfg k) st' = false ->
  finish initial st' = Ok st' -> (n <= fuel)%nat ->
  (forall j s, (j < n)%nat -> after j initial st = Some s -> continues (with_criteria cfg k) s = true) ->
  run k fuel initial st = Some (Ok st').
Proof.
  revert fuel; induction n as [|n IH]; intros fuel st st' A C F L B.
  - cbn [after] in A. injection A as ->. unfold run. destruct fuel; cbn [loop]; rewrite C, F; reflexivity.
  - destruct fuel as [|fuel]; [lia|]. unfold run. cbn [loop]. rewrite (B 0%nat st) by (try lia; reflexivity).
    fold (step k initial st). cbn [after] in A. rewrite (step_same _ k) in A. destruct (step k initial st) as [s|e] eqn:E; [|discriminate].
    apply (IH fuel s st' A C F ltac:(lia)). intros j s' J A'. apply (B (S j) s'); [lia|]. cbn [after]. rewrite (step_same _ k), E. exact A'.
Qed.

Lemma same_count k k' fuel fuel' initial st s s' : run k fuel initial st = Some (Ok s) -> run k' fuel' initial st = Some (Ok s') ->
  t_iter s = t_iter s' -> s = s'.
Proof.
  intros H H' E. destruct (run_after _ _ _ _ _ H) as (n & A & _). destruct (run_after _ _ _ _ _ H') as (n' & A' & _).
  pose proof (after_iter _ _ _ _ A). pose proof (after_iter _ _ _ _ A'). assert (n = n') as <- by lia. congruence.
Qed.
Lemma stricter_continues k k' st : stricter k k' -> continues (with_criteria cfg k) st = true -> continues (with_criteria cfg k') st = true.
Proof.
  intros (N & F & L). unfold continues, check_stop, stop_iterations, stop_factor_change, stop_loss_change, veto_hierarchical. cbn [c_maxiter c_minfactor c_minloss c_thier c_hier with_criteria].
  destruct (t_isdiv st); [rewrite !orb_true_r; reflexivity|]. rewrite !orb_false_r, !negb_true_iff, !andb_false_iff, !orb_false_iff.
  intros [[[A B] C]|V]; [left|right; exact V]. apply Nat.leb_gt in A. apply Rleb_false in B. apply Rleb_false in C. split; [split|].
  - apply Nat.leb_gt. lia.
  - apply Rleb_false. lra.
  - apply Rleb_false. lra.
Qed.
Lemma stricter_longer k k' fuel fuel' initial st s s' : stricter k k' -> run k fuel initial st = Some (Ok s) -> run k' fuel' initial st = Some (Ok s') ->
  (t_iter s <= t_iter s')%nat.
Proof.
  intros ST H H'. destruct (run_after _ _ _ _ _ H) as (n & A & C & _ & _ & B). destruct (run_after _ _ _ _ _ H') as (n' & A' & C' & _ & _ & B').
  pose proof (after_iter _ _ _ _ A). pose proof (after_iter _ _ _ _ A').
  destruct (Nat.le_gt_cases n n') as [L|L]; [lia|]. pose proof (stricter_continues _ _ _ ST (B n' s' L A')) as D. congruence.
Qed.
Lemma other_limit k fuel initial st s n : run k fuel initial st = Some (Ok s) ->
  (t_iter s < k_iterations k /\ t_iter s <= n \/ t_iter s = n)%nat ->
  run (with_limit k n) fuel initial st = Some (Ok s).
Proof.
  intros H K. destruct (run_after _ _ _ _ _ H) as (m & A & C & F & L & B). pose proof (after_iter _ _ _ _ A) as IT.
  apply (after_run _ fuel initial m); [exact A| |exact F|exact L|].
  - revert C. unfold continues, check_stop, stop_iterations, stop_factor_change, stop_loss_change, veto_hierarchical.
    cbn [c_maxiter c_minfactor c_minloss c_thier c_hier with_criteria with_limit k_iterations k_factor k_loss].
    rewrite !orb_false_iff, !negb_false_iff, !andb_true_iff, !orb_true_iff, !Nat.leb_le. intros [[[[X|X]|X] V] D]; (split; [split; [|exact V]|exact D]).
    + left. left. destruct K; lia.
    + left. right. exact X.
    + right. exact X.
  - intros j x J X. pose proof (after_iter _ _ _ _ X) as JT. pose proof (B j x J X) as C'.
    revert C'. unfold continues, check_stop, stop_iterations, stop_factor_change, stop_loss_change, veto_hierarchical.
    cbn [c_maxiter c_minfactor c_minloss c_thier c_hier with_criteria with_limit k_iterations k_factor k_loss].
    rewrite (proj2 (Nat.leb_gt n (t_iter x))) by lia.
    destruct (Nat.leb _ _), (Rleb _ _), (Rleb _ _), (Nat.leb _ _ && _), (t_isdiv x); cbn; intro Q; congruence.
Qed.
End Loop.

(** From the loop to the training. *)
Lemma loop_only_stops cfg features estimate smoother calibrate rate loss p scale offset (fs : list feature) :
  criteria_only_stop (fun k fuel =>
    match fit_main (with_criteria cfg k) features estimate smoother calibrate rate loss fuel p with
    | None => MoreIterations
    | Some (Raise e) => Failed e
    | Some (Ok st) => Trained {| o_scale := scale; o_offset := offset; o_groups := map2 store fs (t_feats st);
                                 o_iterations := t_iter st; o_loss := t_loss st |}
    end).
Proof.
  assert (OK : forall k fuel t,
    match fit_main (with_criteria cfg k) features estimate smoother calibrate rate loss fuel p with
    | None => MoreIterations
    | Some (Raise e) => Failed e
    | Some (Ok st) => Trained {| o_scale := scale; o_offset := offset; o_groups := map2 store fs (t_feats st);
                                 o_iterations := t_iter st; o_loss := t_loss st |}
    end = Trained t -> exists st, fit_main (with_criteria cfg k) features estimate smoother calibrate rate loss fuel p = Some (Ok st) /\
      t = {| o_scale := scale; o_offset := offset; o_groups := map2 store fs (t_feats st); o_iterations := t_iter st; o_loss := t_loss st |}).
  { intros k fuel t E. destruct (fit_main _ _ _ _ _ _ _ _ _) as [[st|e]|]; try discriminate. exists st. split; [reflexivity|congruence]. }
  split; [|split].
  - intros k k' fuel fuel' t t' H H' E. destruct (OK _ _ _ H) as (s & R & ->). destruct (OK _ _ _ H') as (s' & R' & ->). cbn [o_iterations] in E.
    unfold fit_main in R, R'. rewrite (same_count cfg features estimate smoother calibrate rate loss _ _ _ _ _ _ _ _ R R' E). reflexivity.
  - intros k k' fuel fuel' t t' ST H H'. destruct (OK _ _ _ H) as (s & R & ->). destruct (OK _ _ _ H') as (s' & R' & ->). cbn [o_iterations].
    exact (stricter_longer cfg features estimate smoother calibrate rate loss _ _ _ _ _ _ _ _ ST R R').
  - intros k fuel t n H K. destruct (OK _ _ _ H) as (s & R & ->). cbn [o_iterations] in K.
    unfold fit_main in *. rewrite (other_limit cfg features estimate smoother calibrate rate loss _ _ _ _ _ n R K). reflexivity.
Qed.
Lemma none_only_stops : criteria_only_stop (fun _ _ => NoBaseline).
Proof. split; [|split]; intros; discriminate. Qed.

Lemma whole_only_stops gm bppf erfinv bad k prior gs cfg rate D :
  criteria_only_stop (fun c fuel => whole_fit gm bppf erfinv bad k prior gs (with_criteria cfg c) rate fuel D).
Proof.
  unfold whole_fit. destruct (kind_scale k (map x_y D) (map x_w D)) as [scale|]; [|exact none_only_stops].
  cbv zeta. unfold train. cbv zeta. apply (loop_only_stops cfg).
Qed.
Lemma bin_only_stops row bins weight estimate loss start gs cfg rate scale offset D :
  criteria_only_stop (fun c fuel => bin_fit row bins weight estimate loss start gs (with_criteria cfg c) rate scale offset fuel D).
Proof. unfold bin_fit, bin_train. cbv zeta. apply (loop_only_stops cfg). Qed.
Lemma mode_only_stops sort minimize bppf erfinv reorder bad m prior gs cfg rate D :
  criteria_only_stop (fun c fuel => mode_fit sort minimize bppf erfinv reorder bad m prior gs (with_criteria cfg c) rate fuel D).
Proof.
  unfold mode_fit. destruct (mode_scale sort m D) as [scale|]; [|exact none_only_stops]. apply bin_only_stops.
Qed.
Lemma dispersion_only_stops lgamma gamma bayes n_steps prior gs cfg rate D :
  criteria_only_stop (fun c fuel => dispersion_fit lgamma gamma bayes n_steps prior gs (with_criteria cfg c) rate fuel D).
Proof. apply bin_only_stops. Qed.
Lemma price_only_stops gm a c0 vl prior gs cfg rate D :
  criteria_only_stop (fun c fuel => price_fit gm a c0 vl prior gs (with_criteria cfg c) rate fuel D).
Proof.
  unfold price_fit. cbv zeta. destruct (global_scale _ _ _) as [scale|]; [|exact none_only_stops].
  unfold price_train. cbv zeta. apply (loop_only_stops cfg).
Qed.
