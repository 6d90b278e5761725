(** Targets accepted by [fit]. *)
From Coq Require Import ZArith QArith List Bool Lia.
From Verif.Model Require Import Num Targets.
From Verif.Spec Require Import TargetSpec.
Import ListNotations.

Lemma len_check n m : check_len_data n m = false <-> n = 0%nat /\ m = 0%nat.
Proof.
  unfold check_len_data. rewrite Nat.lor_0_l. rewrite negb_false_iff, andb_true_iff, !Nat.eqb_eq. split; intros [-> ->]; auto.
Qed.

Lemma feq_fin v c : feq v (Fin c) = true <-> exists q, v = Fin q /\ (q == c)%Q.
Proof.
  unfold feq. rewrite andb_true_iff. destruct v as [q| | |]; cbn.
  - rewrite !Qle_bool_iff. split.
    + intros [A B]. exists q. split; auto. apply Qle_antisym; auto.
    + intros (q' & E & H). injection E as <-. rewrite H. split; apply Qle_refl.
  - split; [intros [A _]; discriminate|intros (q & E & _); discriminate].
  - split; [intros [_ A]; discriminate|intros (q & E & _); discriminate].
  - split; [intros [A _]; discriminate|intros (q & E & _); discriminate].
Qed.

Lemma accepted e y : check_y e y = true <-> forall v, In v y ->
  match e with GBS => True | _ => in_range (target_range e) v \/ (v = PInf /\ target_range e = NonNegative) end.
Proof.
  assert (M : check_y_multiplicative y = true <-> forall v, In v y -> in_range NonNegative v \/ (v = PInf /\ NonNegative = NonNegative)).
  { unfold check_y_multiplicative. rewrite forallb_forall.
    split; intros H v Hv; specialize (H v Hv).
    - destruct v as [q| | |]; cbn in H; try discriminate; auto. left. exists q. split; auto. apply Qle_bool_iff; auto.
    - destruct H as [(q & -> & H)|[-> _]]; [apply Qle_bool_iff; auto|reflexivity]. }
  assert (A : check_y_additive y = true <-> forall v, In v y -> in_range Real v \/ (v = PInf /\ Real = NonNegative)).
  { unfold check_y_additive. rewrite forallb_forall.
    split; intros H v Hv; specialize (H v Hv).
    - destruct v as [q| | |]; cbn in H; try discriminate. left. exists q. auto.
    - destruct H as [(q & -> & _)|[_ E]]; [reflexivity|discriminate]. }
  assert (C : check_y_classification y = true <-> forall v, In v y -> in_range ZeroOne v \/ (v = PInf /\ ZeroOne = NonNegative)).
  { unfold check_y_classification. rewrite forallb_forall.
    split; intros H v Hv; specialize (H v Hv).
    - apply orb_true_iff in H. rewrite !feq_fin in H. left. destruct H as [(q & -> & E)|(q & -> & E)]; exists q; auto.
    - apply orb_true_iff. rewrite !feq_fin. destruct H as [(q & -> & [E|E])|[_ E]]; [left; eauto|right; eauto|discriminate]. }
  destruct e; cbn [check_y target_range]; auto. split; auto.
Qed.

Lemma in_range_accepted e y : (forall v, In v y -> in_range (target_range e) v) -> check_y e y = true.
Proof. intro H. apply accepted. intros v Hv. specialize (H v Hv). destruct e; auto. Qed.

Lemma nan_rejected e y : e <> GBS -> In NaN y \/ In NInf y -> check_y e y = false.
Proof.
  intros N H. destruct (check_y e y) eqn:E; auto. exfalso. rewrite accepted in E.
  destruct H as [H|H]; specialize (E _ H); destruct e; try congruence;
    destruct E as [(q & E & _)|[E _]]; discriminate.
Qed.

Lemma out_of_range_rejected e y q : e <> GBS -> In (Fin q) y -> ~ in_range (target_range e) (Fin q) -> check_y e y = false.
Proof.
  intros N H R. destruct (check_y e y) eqn:E; auto. exfalso. rewrite accepted in E. specialize (E _ H).
  destruct e; try congruence; destruct E as [E|[E _]]; try discriminate; contradiction.
Qed.

Lemma infinite_accepted e : target_range e = NonNegative -> fit_checks e 1 [PInf] = true.
Proof. destruct e; cbn; intro H; try discriminate; reflexivity. Qed.

Lemma gbs_accepts_anything n y : check_len_data n (length y) = true -> fit_checks GBS n y = true.
Proof. intro H. unfold fit_checks. rewrite H. reflexivity. Qed.

Lemma empty_target_passes e n : (0 < n)%nat -> fit_checks e n [] = true.
Proof.
  intro H. unfold fit_checks. cbn [length]. destruct (check_len_data n 0) eqn:E.
  - destruct e; reflexivity.
  - apply len_check in E. lia.
Qed.

Lemma empty_rejected e n y : fit_checks e n y = true -> ~ (n = 0%nat /\ y = []).
Proof.
  unfold fit_checks. intros H [-> ->]. cbn in H. discriminate.
Qed.

Lemma ex_targets : fit_checks Poisson 3 [Fin 0; Fin (1#2); Fin 7] = true /\ fit_checks Classifier 2 [Fin 0; Fin 1] = true /\
  fit_checks Classifier 2 [Fin 0; Fin (1#2)] = false /\ fit_checks Location 1 [Fin (-3)] = true /\
  fit_checks Poisson 1 [Fin (-3)] = false.
Proof. repeat split; reflexivity. Qed.
