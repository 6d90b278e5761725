(** Training with observers: the theorems. *)
From Coq Require Import ZArith List Bool Reals Lra Lia.
From Verif.Proofs Require Import WatchFacts.
From Verif.Model Require Import Train Observers.
From Verif.Spec Require Import ObserverSpec.
Import ListNotations.
Local Open Scope R_scope.

Lemma seq_filter_shift {A} (c : nat -> A -> bool) : forall (l : list A) i,
  filter (fun j => match nth_error l (j - i) with Some x => c j x | None => false end) (seq i (length l)) =
  map fst (filter (fun e => c (fst e) (snd e)) (numbered i l)).
Proof.
  induction l as [|x l IH]; intro i; [reflexivity|]. cbn [length seq filter numbered fst snd].
  rewrite Nat.sub_diag. cbn [nth_error].
  assert (E : filter (fun j => match nth_error (x :: l) (j - i) with Some y => c j y | None => false end) (seq (S i) (length l)) =
              filter (fun j => match nth_error l (j - S i) with Some y => c j y | None => false end) (seq (S i) (length l))).
  { apply filter_ext_in. intros j J. apply in_seq in J. replace (j - i)%nat with (S (j - S i)) by lia. reflexivity. }
  rewrite E, IH. destruct (c i x); reflexivity.
Qed.
Lemma visited_numbered cfg it : forall fl i, visited cfg i fl it =
  map fst (filter (fun e => negb (skipped cfg (snd e) it)) (numbered i fl)).
Proof. induction fl as [|f fl IH]; intro i; [reflexivity|]. cbn. rewrite IH. destruct (skipped cfg f it); reflexivity. Qed.
Lemma visited_trained cfg features it : visited cfg 0 features it = trained_in cfg features it.
Proof.
  unfold trained_in. rewrite visited_numbered.
  rewrite <- (seq_filter_shift (fun _ f => negb (skipped cfg f it)) features 0). apply filter_ext_in. intros j _. rewrite Nat.sub_0_r. reflexivity.
Qed.

Lemma numbered_fst {A} : forall (l : list A) i, map fst (numbered i l) = seq i (length l).
Proof. induction l as [|x l IH]; intro i; cbn; [|rewrite IH]; reflexivity. Qed.
Lemma numbered_snd {A} : forall (l : list A) i, map snd (numbered i l) = l.
Proof. induction l as [|x l IH]; intro i; cbn; [|rewrite IH]; reflexivity. Qed.
Lemma combine_snd {A B} : forall (a : list A) (b : list B), length a = length b -> map snd (combine a b) = b.
Proof. induction a as [|x a IH]; intros [|y b] L; try discriminate L; cbn; [|rewrite IH by (cbn in L; lia)]; reflexivity. Qed.
Lemma filter_all {A} (c : A -> bool) l : (forall x, c x = true) -> filter c l = l.
Proof. intro H. induction l; cbn; [|rewrite H, IHl]; reflexivity. Qed.
Lemma numbered_length {A} : forall (l : list A) i, length (numbered i l) = length l.
Proof. induction l; intro i; cbn; auto. Qed.
Lemma numbered_map {A B} (f : A -> B) : forall l i, numbered i (map f l) = map (fun e => (fst e, f (snd e))) (numbered i l).
Proof. induction l as [|x l IH]; intro i; cbn; [|rewrite IH]; reflexivity. Qed.
Lemma numbered_nth {A} (l : list A) : forall i j x, In (j, x) (numbered i l) -> nth_error l (j - i) = Some x /\ (i <= j)%nat.
Proof.
  induction l as [|y l IH]; intros i j x I; [contradiction|]. cbn in I. destruct I as [E|I].
  - injection E as <- <-. rewrite Nat.sub_diag. auto.
  - destruct (IH _ _ _ I) as [H L]. split; [|lia]. replace (j - i)%nat with (S (j - S i)) by lia. exact H.
Qed.
Lemma combine_numbered {A B} : forall (a : list A) (b : list B) i x j y, In (x, (j, y)) (combine a (numbered i b)) -> nth_error a (j - i) = Some x /\ (i <= j)%nat.
Proof.
  induction a as [|z a IH]; intros [|w b] i x j y I; cbn in I; try contradiction. destruct I as [E|I].
  - injection E as <- <- <-. rewrite Nat.sub_diag. auto.
  - destruct (IH _ _ _ _ _ I) as [H L]. split; [|lia]. replace (j - i)%nat with (S (j - S i)) by lia. exact H.
Qed.

Lemma all_groups cfg features it sl : c_hier cfg && Nat.ltb it (c_thier cfg) = false -> length sl = length features ->
  state_groups cfg features it sl = numbered 0 sl.
Proof.
  intros H L. unfold state_groups. rewrite H. cbn [negb orb]. rewrite filter_all by auto. apply combine_snd. rewrite numbered_length. auto.
Qed.
Lemma hier_groups cfg features it sl i s : c_hier cfg = true -> (it < c_thier cfg)%nat -> In (i, s) (state_groups cfg features it sl) ->
  exists f, nth_error features i = Some f /\ f_hier f = true.
Proof.
  intros H L I. unfold state_groups in I. apply in_map_iff in I. destruct I as ([f [j t]] & E & I). cbn in E. injection E as -> ->.
  apply filter_In in I. destruct I as [I C]. cbn [fst] in C. rewrite H, (proj2 (Nat.ltb_lt _ _) L) in C. cbn in C.
  apply combine_numbered in I. rewrite Nat.sub_0_r in I. exists f. tauto.
Qed.

Section Training.
Variable cfg : settings.
Variable features : list feature.
Variable calc : nat -> nat -> preds -> list R.
Variable smooth : nat -> nat -> preds -> list R -> nat -> option R.
Variable calib : nat -> list R -> list R.
Variable rate : nat -> nat -> R.
Variable loss : preds -> R.

Lemma stopped_shows_all st : continues cfg st = false -> c_hier cfg && Nat.ltb (t_iter st) (c_thier cfg) = false.
Proof.
  unfold continues, check_stop, veto_hierarchical. intro E. apply orb_false_iff in E. destruct E as [E _]. apply negb_false_iff, andb_true_iff in E.
  destruct E as [_ E]. apply negb_true_iff, andb_false_iff in E. destruct (c_hier cfg); [|reflexivity]. destruct E as [E|E]; [|discriminate].
  apply Nat.leb_gt in E. cbn. apply Nat.ltb_ge. lia.
Qed.

(** The calls of a training do not depend on the observers. *)
Theorem observed_calls fuel p : exists calls,
  (forall W (watch : W -> call -> option W) w,
     observed_fit cfg features calc smooth calib rate loss watch fuel p w =
     ends watch w calls (fit_main cfg features calc smooth calib rate loss fuel p)) /\
  (forall e, In e calls -> e_loss e = loss (e_preds e)) /\
  (forall e i s, In e calls -> c_hier cfg = true -> (0 <= e_pass e < Z.of_nat (c_thier cfg))%Z -> In (i, s) (e_groups e) ->
     exists f, nth_error features i = Some f /\ f_hier f = true) /\
  (forall st, fit_main cfg features calc smooth calib rate loss fuel p = Some (Ok st) ->
     map (fun e => (e_pass e, e_feature e)) calls = schedule cfg features (t_iter st) /\
     exists front e, calls = front ++ [e] /\ final_call st e).
Proof.
  destruct (loop_observed cfg features calc smooth calib rate loss (loss p) fuel (init_state features loss p) p) as (calls & A & B & C);
    [unfold sized; cbn; apply map_length|reflexivity|]. exists calls. split; [exact A|]. rewrite Forall_forall in B. split; [|split].
  - intros e I. apply (B e I).
  - intros e i s I H L G. destruct (B e I) as [_ P]. destruct (P (proj1 L)) as (sl & E). rewrite E in G.
    eapply hier_groups; eauto. lia.
  - intros st E. destruct (C st E) as (Le & Sz & Co & front & e & F & La & K). cbn [t_iter init_state] in K. rewrite Nat.sub_0_r in K. split.
    + rewrite F, map_app. unfold schedule. f_equal.
      * transitivity (map key front); [reflexivity|]. rewrite K. apply flat_map_ext. intro k. unfold pass_calls. rewrite visited_trained. reflexivity.
      * destruct La as (P1 & P2 & _). cbn. rewrite P1, P2. reflexivity.
    + exists front, e. split; [exact F|]. destruct La as (P1 & P2 & P3 & P4 & P5). repeat (split; [assumption|]). rewrite P5, all_groups.
      * split; [rewrite numbered_fst, map_length; reflexivity|]. rewrite numbered_map, map_map. cbn [fst snd].
        assert (X : forall l i, forallb (fun s => match s_agg s with Some _ => true | None => false end) l = true ->
          map (fun x => Some (s_factors (prepared (snd x)))) (numbered i l) = map s_agg l).
        { clear. induction l as [|s l IH]; intros i H; [reflexivity|]. cbn in H. apply andb_true_iff in H. destruct H as [H1 H2]. cbn [numbered map snd]. rewrite IH by auto.
          f_equal. unfold prepared. cbn. destruct (s_agg s); [reflexivity|discriminate]. }
        apply X. clear -E. unfold fit_main in E. revert E. generalize (init_state features loss p). generalize (loss p). intros initial. 
        induction fuel as [|n IH]; intros s E; cbn [loop] in E; destruct (continues cfg s); try discriminate.
        -- unfold finish in E. destruct (forallb _ (t_feats s)) eqn:Q; [|discriminate E]. destruct (_ && _); [discriminate|]. injection E as <-. exact Q.
        -- destruct (iteration _ _ _ _ _ _ _ _ s) as [s'|]; [|discriminate E]. apply (IH s'). exact E.
        -- unfold finish in E. destruct (forallb _ (t_feats s)) eqn:Q; [|discriminate E]. destruct (_ && _); [discriminate|]. injection E as <-. exact Q.
      * apply stopped_shows_all, Co.
      * rewrite map_length. exact Sz.
Qed.

Lemma within_iff n b : within n b = true <-> (fst b <= n <= snd b)%nat.
Proof. unfold within. rewrite andb_true_iff, !Nat.leb_le. reflexivity. Qed.
Lemma takes_accepts {M} quantile (o : observer M) e : takes quantile o -> accepts quantile o e = true.
Proof. intros [A B]. unfold accepts, passed. destruct (e_feature e); apply within_iff; assumption. Qed.
Lemma told {M} quantile (os : list (observer M * M)) e : (forall o m, In (o, m) os -> takes quantile o /\ silent o) ->
  tell_all quantile os e = Some (map (fun om => (fst om, remembers (fst om) (snd om) [e])) os).
Proof.
  induction os as [|[o m] os IH]; intro H; [reflexivity|]. cbn [tell_all map]. destruct (H o m (or_introl eq_refl)) as [T S]. unfold tell.
  rewrite (takes_accepts quantile o e T). unfold remembers at 1. cbn [fst snd fold_left]. destruct (ob_react o m e) eqn:E; [|destruct (S m e E)].
  rewrite IH by (intros; apply (H o0 m1); right; auto). reflexivity.
Qed.
Lemma hear_told {M} quantile calls : forall os : list (observer M * M), (forall o m, In (o, m) os -> takes quantile o /\ silent o) ->
  hear (tell_all quantile) os calls = Some (map (fun om => (fst om, remembers (fst om) (snd om) calls)) os).
Proof.
  induction calls as [|e calls IH]; intros os H; cbn [hear].
  - f_equal. rewrite <- (map_id os) at 1. apply map_ext. intros [o m]. reflexivity.
  - rewrite told by exact H. rewrite IH.
    + rewrite map_map. f_equal.
    + intros o m I. apply in_map_iff in I. destruct I as ([o' m'] & E & I). cbn in E. injection E as <- <-. eauto.
Qed.

(** Observers change nothing, and each of them hears all calls. *)
Theorem no_influence {M} quantile fuel p : exists calls, forall os : list (observer M * M),
  (forall o m, In (o, m) os -> takes quantile o /\ silent o) ->
  observed_fit cfg features calc smooth calib rate loss (tell_all quantile) fuel p os =
  match fit_main cfg features calc smooth calib rate loss fuel p with
  | None => MorePasses
  | Some r => Ended r (map (fun om => (fst om, remembers (fst om) (snd om) calls)) os)
  end.
Proof.
  destruct (observed_calls fuel p) as (calls & A & _). exists calls. intros os H. rewrite A. unfold ends. rewrite hear_told by exact H. reflexivity.
Qed.

(** An observer that does not accept the arguments makes every training fail. *)
Lemma deaf {M} quantile (o : observer M) m e os1 os2 : unheard quantile o -> e_feature e = None -> tell_all quantile (os1 ++ (o, m) :: os2) e = None.
Proof.
  intros A E. induction os1 as [|[o' m'] os1 IH]; cbn [app tell_all].
  - unfold tell, accepts, passed. rewrite E. destruct (within _ _) eqn:X; [|reflexivity]. apply within_iff in X. contradiction.
  - destruct (tell quantile o' m' e); [|reflexivity]. rewrite IH. reflexivity.
Qed.
Lemma told_keeps {M} quantile (o : observer M) m e os2 : forall os1 r, tell_all quantile (os1 ++ (o, m) :: os2) e = Some r -> exists a b m', r = a ++ (o, m') :: b.
Proof.
  induction os1 as [|[o' m'] os1 IH]; intros r H; cbn [app tell_all] in H.
  - destruct (tell quantile o m e) as [m1|]; [|discriminate]. destruct (tell_all quantile os2 e) as [b|]; [|discriminate]. injection H as <-. exists [], b, m1. reflexivity.
  - destruct (tell quantile o' m' e) as [m1|]; [|discriminate]. destruct (tell_all quantile (os1 ++ _) e) as [b|]; [|discriminate]. injection H as <-.
    destruct (IH b eq_refl) as (a & c & m2 & ->). exists ((o', m1) :: a), c, m2. reflexivity.
Qed.
Lemma deaf_calls {M} quantile (o : observer M) calls : unheard quantile o -> (exists e, In e calls /\ e_feature e = None) ->
  forall os1 m os2, hear (tell_all quantile) (os1 ++ (o, m) :: os2) calls = None.
Proof.
  intros A. induction calls as [|e calls IH]; intros (d & I & N) os1 m os2; [contradiction|]. cbn [hear].
  destruct (tell_all quantile (os1 ++ (o, m) :: os2) e) as [r|] eqn:T; [|reflexivity]. destruct I as [<-|I].
  - rewrite (deaf quantile o m e os1 os2 A N) in T. discriminate.
  - destruct (told_keeps _ _ _ _ _ _ _ T) as (a & b & m' & ->). apply IH. eauto.
Qed.
Theorem unheard_fails {M} quantile fuel p (os : list (observer M * M)) o m st os' :
  In (o, m) os -> unheard quantile o ->
  observed_fit cfg features calc smooth calib rate loss (tell_all quantile) fuel p os <> Ended (Ok st) os'.
Proof.
  intros I A E. destruct (observed_calls fuel p) as (calls & Q & _ & _ & L). rewrite Q in E. unfold ends in E.
  destruct (hear (tell_all quantile) os calls) as [w|] eqn:H; [|discriminate].
  destruct (fit_main _ _ _ _ _ _ _ _ _) as [r|]; [|discriminate]. injection E as -> ->.
  destruct (L st eq_refl) as (_ & front & e & F & (_ & N & _)). apply in_split in I. destruct I as (a & b & ->).
  rewrite (deaf_calls quantile o calls A) in H; [discriminate H|]. exists e. split; [rewrite F; apply in_or_app; right; left; reflexivity|exact N].
Qed.
End Training.

Lemma base_unheard {M} quantile : unheard quantile (@base_observer M).
Proof. unfold unheard. cbn. destruct quantile; lia. Qed.
Lemma plotting_takes {M} quantile (react : M -> call -> option M) : takes quantile (plotting_observer react).
Proof. unfold takes. cbn. destruct quantile; lia. Qed.
