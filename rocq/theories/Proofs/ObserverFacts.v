(** Facts on the plotting observer. *)
From Coq Require Import ZArith List Bool Reals Lia Lra.
From Verif.Model Require Import Train Diagnostics.
From Verif.Spec Require Import DiagnosticsSpec.
Import ListNotations.
Local Open Scope R_scope.

Section Runs.
Variable cfg : settings.
Variable features : list feature.
Variable calc : nat -> nat -> preds -> list R.
Variable smooth : nat -> nat -> preds -> list R -> nat -> option R.
Variable calib : nat -> list R -> list R.
Variable rate : nat -> nat -> R.
Variable loss : preds -> R.
Notation step i0 := (iteration cfg features calc smooth calib rate loss i0).

Lemma step_iter i0 st st' : step i0 st = Ok st' -> t_iter st' = S (t_iter st).
Proof.
  unfold iteration. intro E. repeat match type of E with
  | match ?x with _ => _ end = _ => destruct x; try discriminate
  | (let '(_, _) := ?x in _) = _ => destruct x
  end; injection E as <-; reflexivity.
Qed.

Lemma calls_chain i0 : forall fuel st st', loop cfg features calc smooth calib rate loss fuel i0 st = Some (Ok st') ->
  exists states : list state,
    observe_calls cfg features calc smooth calib rate loss fuel i0 st =
      map (fun s => (Z.of_nat (t_iter s), s)) states ++ [((-1)%Z, st')] /\
    (forall k s, nth_error (states ++ [st']) k = Some s -> after (step i0) k st s /\ t_iter s = (t_iter st + k)%nat).
Proof.
  induction fuel as [|fuel IH]; intros st st' E.
  - cbn [loop] in E. destruct (continues cfg st) eqn:C; [discriminate|]. injection E as E. unfold finish in E.
    destruct (forallb _ (t_feats st)) eqn:A; [|discriminate]. destruct (is_diverged i0 (t_loss st) && Nat.leb 5 (S (t_diverging st))); [discriminate|].
    injection E as <-. exists []. cbn [observe_calls]. rewrite C, A. split; [reflexivity|].
    intros [|[|k]] s N; cbn in N; try discriminate. injection N as <-. split; [constructor|lia].
  - cbn [loop] in E. destruct (continues cfg st) eqn:C.
    + destruct (iteration cfg features calc smooth calib rate loss i0 st) as [s1|e] eqn:S1; [|discriminate].
      destruct (IH s1 st' E) as (states & O1 & H). exists (st :: states). cbn [observe_calls]. rewrite C, S1, O1. split; [reflexivity|].
      intros [|k] s N; cbn in N.
      * injection N as <-. split; [constructor|lia].
      * destruct (H k s N) as [A T]. split; [econstructor; eassumption|]. rewrite T, (step_iter _ _ _ S1). lia.
    + injection E as E. unfold finish in E.
      destruct (forallb _ (t_feats st)) eqn:A; [|discriminate]. destruct (is_diverged i0 (t_loss st) && Nat.leb 5 (S (t_diverging st))); [discriminate|].
      injection E as <-. exists []. cbn [observe_calls]. rewrite C, A. split; [reflexivity|].
      intros [|[|k]] s N; cbn in N; try discriminate. injection N as <-. split; [constructor|lia].
Qed.
Lemma after_unique f k : forall st s s', after f k st s -> after f k st s' -> s = s'.
Proof.
  induction k as [|k IH]; intros st s s' A A'; inversion A; inversion A'; subst; [reflexivity|].
  eapply IH; [eassumption|]. congruence.
Qed.

(** What the observer has written after the calls. *)
Definition logs (wanted it : Z) : bool := (Z.leb it wanted && negb (Z.eqb it (-1))) || Z.eqb wanted (-1).
Lemma observe_losses wanted calls : forall r,
  r_loss (fold_left (observe wanted) calls r) = r_loss r ++ map (fun c => t_loss (snd c)) (filter (fun c => logs wanted (fst c)) calls).
Proof.
  induction calls as [|[it s] l IH]; intro r; cbn [fold_left filter fst]; [now rewrite app_nil_r|]. rewrite IH. cbn [observe r_loss]. fold (logs wanted it).
  destruct (logs wanted it); [cbn; now rewrite <- app_assoc|reflexivity].
Qed.
Lemma observe_changes wanted calls : forall r,
  r_change (fold_left (observe wanted) calls r) =
  r_change r ++ map (fun c => t_delta (snd c)) (filter (fun c => logs wanted (fst c) && negb (Z.eqb (fst c) 0)) calls).
Proof.
  induction calls as [|[it s] l IH]; intro r; cbn [fold_left filter fst]; [now rewrite app_nil_r|]. rewrite IH. cbn [observe r_change]. fold (logs wanted it).
  destruct (logs wanted it && negb (Z.eqb it 0)); [cbn; now rewrite <- app_assoc|reflexivity].
Qed.
Lemma observe_state wanted calls : forall r,
  r_state (fold_left (observe wanted) calls r) =
  match find (fun c => Z.eqb (fst c) wanted) (rev calls) with Some c => Some (snd c) | None => r_state r end.
Proof.
  induction calls as [|[it s] l IH]; intro r; cbn [fold_left rev]; [reflexivity|]. rewrite IH. cbn [observe r_state].
  assert (FA : forall A (f : A -> bool) a b, find f (a ++ b) = match find f a with Some x => Some x | None => find f b end).
  { intros A f a b. induction a as [|x a IHa]; cbn; [reflexivity|]. destruct (f x); [reflexivity|exact IHa]. }
  rewrite FA. destruct (find _ (rev l)); [reflexivity|]. cbn [find fst]. destruct (Z.eqb it wanted); reflexivity.
Qed.

(** The calls of a training that ends, by the number of passes before. *)
Lemma run_calls fuel p st : fit_main cfg features calc smooth calib rate loss fuel p = Some (Ok st) ->
  exists states : list state, length states = t_iter st /\
    observe_calls cfg features calc smooth calib rate loss fuel (loss p) (init_state features loss p) =
      map (fun k => (Z.of_nat k, nth k states st)) (seq 0 (t_iter st)) ++ [((-1)%Z, st)] /\
    (forall k, (k <= t_iter st)%nat -> after (step (loss p)) k (init_state features loss p) (nth k states st)).
Proof.
  intro E. destruct (calls_chain _ _ _ _ E) as (states & C & H).
  assert (LT : length states = t_iter st).
  { destruct (H (length states) st) as [_ T]; [rewrite nth_error_app2, Nat.sub_diag by lia; reflexivity|]. cbn in T. lia. }
  exists states. split; [exact LT|]. split.
  - rewrite C. f_equal. rewrite <- LT. clear C LT E.
    assert (G : forall k, (k < length states)%nat -> t_iter (nth k states st) = k).
    { intros k L. destruct (H k (nth k states st)) as [_ T]; [rewrite nth_error_app1 by exact L; now apply nth_error_nth'|]. exact T. }
    clear H. assert (M : states = map (fun k => nth k states st) (seq 0 (length states))).
    { clear G. induction states as [|s l IH]; [reflexivity|]. cbn [length seq map nth]. f_equal. rewrite <- seq_shift, map_map. exact IH. }
    rewrite M at 1. rewrite map_map. apply map_ext_in. intros k I. apply in_seq in I. rewrite G by lia. reflexivity.
  - intros k L. destruct (Nat.eq_dec k (length states)) as [->|N].
    + rewrite nth_overflow by lia. apply (H (length states)). rewrite nth_error_app2, Nat.sub_diag by lia. reflexivity.
    + apply (H k). rewrite nth_error_app1 by lia. apply nth_error_nth'. lia.
Qed.

Lemma some_iteration fuel p st : fit_main cfg features calc smooth calib rate loss fuel p = Some (Ok st) -> features <> [] -> (1 <= t_iter st)%nat.
Proof.
  intros E NE. destruct (run_calls fuel p st E) as (states & LT & C & A). destruct (t_iter st) eqn:T; [exfalso|lia].
  destruct fuel as [|fuel]; unfold fit_main in E; cbn [loop] in E.
  - destruct (continues cfg (init_state features loss p)) eqn:CC; [discriminate|]. unfold finish in E. cbn [init_state t_feats] in E.
    destruct features as [|f fl]; [congruence|]. cbn in E. discriminate.
  - destruct (continues cfg (init_state features loss p)) eqn:CC.
    + destruct (iteration cfg features calc smooth calib rate loss (loss p) (init_state features loss p)) as [s1|e] eqn:S1; [|discriminate].
      destruct (calls_chain _ _ _ _ E) as (states' & _ & H). destruct (H (length states') st) as [_ T'].
      { rewrite nth_error_app2, Nat.sub_diag by lia. reflexivity. }
      rewrite (step_iter _ _ _ S1) in T'. lia.
    + unfold finish in E. cbn [init_state t_feats] in E. destruct features as [|f fl]; [congruence|]. cbn in E. discriminate.
Qed.

Lemma filter_map {A B} (f : A -> B) (p : B -> bool) l : filter p (map f l) = map f (filter (fun x => p (f x)) l).
Proof. induction l as [|x l IH]; cbn; [reflexivity|]. rewrite IH. destruct (p (f x)); reflexivity. Qed.
Lemma filter_all {A} (p : A -> bool) l : (forall x, In x l -> p x = true) -> filter p l = l.
Proof. induction l as [|x l IH]; intro H; cbn; [reflexivity|]. rewrite (H x) by (left; reflexivity). f_equal. apply IH. intros y I. apply H. right; exact I. Qed.
Lemma filter_none {A} (p : A -> bool) l : (forall x, In x l -> p x = false) -> filter p l = [].
Proof. induction l as [|x l IH]; intro H; cbn; [reflexivity|]. rewrite (H x) by (left; reflexivity). apply IH. intros y I. apply H. right; exact I. Qed.

Lemma observed_last fuel p st : fit_main cfg features calc smooth calib rate loss fuel p = Some (Ok st) -> features <> [] ->
  let r := observed cfg features calc smooth calib rate loss (-1) fuel p in
  let n := t_iter st in
  (1 <= n)%nat /\ after (step (loss p)) n (init_state features loss p) st /\ r_state r = Some st /\
  length (r_loss r) = S n /\ length (r_change r) = n /\
  forall k s, (k <= n)%nat -> after (step (loss p)) k (init_state features loss p) s ->
    nth_error (r_loss r) k = Some (t_loss s) /\ ((1 <= k)%nat -> nth_error (r_change r) (k - 1) = Some (t_delta s)).
Proof.
  intros E NE r n. pose proof (some_iteration fuel p st E NE) as N. fold n in N.
  destruct (run_calls fuel p st E) as (states & LT & C & A). fold n in LT, C, A.
  split; [exact N|]. split; [specialize (A n (le_n n)); rewrite nth_overflow in A by lia; exact A|].
  set (g := fun k => nth k states st) in *. assert (GN : g n = st) by (unfold g; apply nth_overflow; lia).
  assert (RL : r_loss r = map (fun k => t_loss (g k)) (seq 0 (S n))).
  { unfold r, observed. rewrite C, observe_losses. cbn [new_record r_loss app]. rewrite filter_all.
    - rewrite map_app, map_map. cbn [map snd]. rewrite seq_S, map_app. cbn [map Nat.add]. rewrite GN. reflexivity.
    - intros c _. unfold logs. apply orb_true_r. }
  assert (RC : r_change r = map (fun k => t_delta (g k)) (seq 1 n)).
  { unfold r, observed. rewrite C, observe_changes. cbn [new_record r_change app]. rewrite filter_app, filter_map. cbn [fst].
    destruct n as [|n']; [lia|]. rewrite (seq_S n' 1), (map_app _ (seq 1 n')). cbn [map Nat.add]. rewrite GN. cbn [seq filter]. cbn [Z.of_nat Z.eqb negb andb filter app]. unfold logs at 1. rewrite andb_false_r.
    rewrite filter_all.
    - cbn [filter fst]. unfold logs at 1. cbn [Z.eqb orb andb negb]. rewrite orb_true_r. cbn [Pos.eqb andb negb]. rewrite map_app, map_map. cbn [map snd].
      reflexivity.
    - intros k I. apply in_seq in I. unfold logs. rewrite orb_true_r. cbn [andb]. apply negb_true_iff. apply Z.eqb_neq. lia. }
  assert (RS : r_state r = Some st).
  { unfold r, observed. rewrite C, observe_state, rev_app_distr. reflexivity. }
  split; [exact RS|]. rewrite RL, RC, !map_length, !seq_length. split; [reflexivity|]. split; [reflexivity|].
  intros k s L AS. rewrite (after_unique _ _ _ _ _ AS (A k L)). fold (g k). split.
  - rewrite (map_nth_error (fun k => t_loss (g k)) k (seq 0 (S n)) (d := k)); [reflexivity|].
    rewrite (nth_error_nth' _ 0%nat) by (rewrite seq_length; lia). f_equal. rewrite seq_nth by lia. lia.
  - intro L1. rewrite (map_nth_error (fun k => t_delta (g k)) (k - 1) (seq 1 n) (d := k)); [reflexivity|].
    rewrite (nth_error_nth' _ 0%nat) by (rewrite seq_length; lia). f_equal. rewrite seq_nth by lia. lia.
Qed.

Lemma filter_upto m n : (m < n)%nat -> filter (fun k => Nat.leb k m) (seq 0 n) = seq 0 (S m).
Proof.
  intro L. replace n with (S m + (n - S m))%nat by lia. rewrite seq_app, filter_app.
  rewrite filter_all, filter_none; [apply app_nil_r| |].
  - intros k I. apply in_seq in I. apply Nat.leb_gt. lia.
  - intros k I. apply in_seq in I. apply Nat.leb_le. lia.
Qed.
Lemma find_seq (g : nat -> state) m n : (m < n)%nat ->
  find (fun c : Z * state => Z.eqb (fst c) (Z.of_nat m)) (rev (map (fun k => (Z.of_nat k, g k)) (seq 0 n))) = Some (Z.of_nat m, g m).
Proof.
  induction n as [|n IH]; intro L; [lia|]. rewrite seq_S, map_app, rev_app_distr. cbn [map rev app find fst Nat.add].
  destruct (Z.eqb_spec (Z.of_nat n) (Z.of_nat m)) as [Q|Q]; [apply Nat2Z.inj in Q; now subst|]. apply IH. lia.
Qed.
Lemma find_seq_none (g : nat -> state) m n : (n <= m)%nat ->
  find (fun c : Z * state => Z.eqb (fst c) (Z.of_nat m)) (rev (map (fun k => (Z.of_nat k, g k)) (seq 0 n))) = None.
Proof.
  induction n as [|n IH]; intro L; [reflexivity|]. rewrite seq_S, map_app, rev_app_distr. cbn [map rev app find fst Nat.add].
  destruct (Z.eqb_spec (Z.of_nat n) (Z.of_nat m)) as [Q|Q]; [apply Nat2Z.inj in Q; lia|]. apply IH. lia.
Qed.

Lemma observed_chosen fuel p st m : fit_main cfg features calc smooth calib rate loss fuel p = Some (Ok st) ->
  (1 <= m < t_iter st)%nat ->
  let r := observed cfg features calc smooth calib rate loss (Z.of_nat m) fuel p in
  (exists s, after (step (loss p)) m (init_state features loss p) s /\ r_state r = Some s) /\
  length (r_loss r) = S m /\ length (r_change r) = m /\
  forall k s, (k <= m)%nat -> after (step (loss p)) k (init_state features loss p) s ->
    nth_error (r_loss r) k = Some (t_loss s) /\ ((1 <= k)%nat -> nth_error (r_change r) (k - 1) = Some (t_delta s)).
Proof.
  intros E M r. destruct (run_calls fuel p st E) as (states & LT & C & A). set (n := t_iter st) in *.
  set (g := fun k => nth k states st) in *.
  assert (LG : forall k, logs (Z.of_nat m) (Z.of_nat k) = Nat.leb k m).
  { intro k. unfold logs. destruct (Z.eqb_spec (Z.of_nat m) (-1)); [lia|]. destruct (Z.eqb_spec (Z.of_nat k) (-1)); [lia|].
    cbn [negb]. rewrite andb_true_r, orb_false_r. destruct (Nat.leb_spec k m), (Z.leb_spec (Z.of_nat k) (Z.of_nat m)); try reflexivity; lia. }
  assert (LN : logs (Z.of_nat m) (-1) = false).
  { unfold logs. destruct (Z.eqb_spec (Z.of_nat m) (-1)); [lia|]. cbn. now rewrite andb_false_r. }
  assert (RL : r_loss r = map (fun k => t_loss (g k)) (seq 0 (S m))).
  { unfold r, observed. rewrite C, observe_losses. cbn [new_record r_loss app]. rewrite filter_app, filter_map. cbn [filter fst]. rewrite LN, app_nil_r.
    rewrite (filter_ext _ (fun k => Nat.leb k m)) by exact LG. rewrite filter_upto by lia. rewrite map_map. reflexivity. }
  assert (RC : r_change r = map (fun k => t_delta (g k)) (seq 1 m)).
  { unfold r, observed. rewrite C, observe_changes. cbn [new_record r_change app]. rewrite filter_app, filter_map. cbn [filter fst]. rewrite LN. cbn [andb]. rewrite app_nil_r.
    rewrite (filter_ext _ (fun k => Nat.leb k m && negb (Z.eqb (Z.of_nat k) 0))) by (intro k; now rewrite LG).
    replace n with (1 + (n - 1))%nat by lia. rewrite seq_app, filter_app. cbn [seq filter Nat.leb Z.of_nat Z.eqb negb andb app Nat.add].
    replace (n - 1)%nat with (m + (n - 1 - m))%nat by lia. rewrite seq_app, filter_app, filter_all, filter_none, app_nil_r.
    - rewrite map_map. reflexivity.
    - intros k I. apply in_seq in I. apply andb_false_iff. left. apply Nat.leb_gt. lia.
    - intros k I. apply in_seq in I. apply andb_true_iff. split; [apply Nat.leb_le; lia|]. apply negb_true_iff, Z.eqb_neq. lia. }
  split.
  { exists (g m). split; [apply A; lia|]. unfold r, observed. rewrite C, observe_state, rev_app_distr. cbn [rev app find fst].
    destruct (Z.eqb_spec (-1) (Z.of_nat m)); [lia|]. fold g. rewrite (find_seq g) by lia. reflexivity. }
  rewrite RL, RC, !map_length, !seq_length. split; [reflexivity|]. split; [reflexivity|].
  intros k s L AS. rewrite (after_unique _ _ _ _ _ AS (A k ltac:(lia))). fold (g k). split.
  - rewrite (map_nth_error (fun k => t_loss (g k)) k (seq 0 (S m)) (d := k)); [reflexivity|].
    rewrite (nth_error_nth' _ 0%nat) by (rewrite seq_length; lia). f_equal. rewrite seq_nth by lia. lia.
  - intro L1. rewrite (map_nth_error (fun k => t_delta (g k)) (k - 1) (seq 1 m) (d := k)); [reflexivity|].
    rewrite (nth_error_nth' _ 0%nat) by (rewrite seq_length; lia). f_equal. rewrite seq_nth by lia. lia.
Qed.
Lemma observed_not fuel p st m : fit_main cfg features calc smooth calib rate loss fuel p = Some (Ok st) ->
  (t_iter st <= m)%nat -> r_state (observed cfg features calc smooth calib rate loss (Z.of_nat m) fuel p) = None.
Proof.
  intros E M. destruct (run_calls fuel p st E) as (states & LT & C & A). unfold observed. rewrite C, observe_state, rev_app_distr. cbn [rev app find fst].
  destruct (Z.eqb_spec (-1) (Z.of_nat m)); [lia|]. rewrite (find_seq_none (fun k => nth k states st)) by exact M. reflexivity.
Qed.
End Runs.
