(** Order facts on [fnum]. *)
From Coq Require Import ZArith QArith List Bool Lia Lqa.
From Verif.Model Require Import Num.
From Verif.Proofs Require Import NumFacts.
Import ListNotations.

Lemma feq_refl a : a <> NaN -> feq a a = true.
Proof. intro H. unfold feq. rewrite fle_refl by exact H. reflexivity. Qed.

Lemma feq_sym a b : feq a b = feq b a.
Proof. unfold feq. apply andb_comm. Qed.

Lemma feq_iff a b : feq a b = true <-> fle a b = true /\ fle b a = true.
Proof. unfold feq. apply andb_true_iff. Qed.

Lemma feq_trans a b c : feq a b = true -> feq b c = true -> feq a c = true.
Proof.
  rewrite !feq_iff. intros [H1 H2] [H3 H4]. split; eapply fle_trans; eauto.
Qed.

Lemma feq_not_nan a b : feq a b = true -> a <> NaN /\ b <> NaN.
Proof. destruct a, b; cbn; intro H; try discriminate; split; discriminate. Qed.

Lemma fle_not_nan a b : fle a b = true -> a <> NaN /\ b <> NaN.
Proof. destruct a, b; cbn; intro H; try discriminate; split; discriminate. Qed.

Lemma flt_iff a b : flt a b = true <-> a <> NaN /\ b <> NaN /\ fle b a = false.
Proof.
  unfold flt. destruct a, b; rewrite ?negb_true_iff;
    (split; [intro H; repeat split; try discriminate; try exact H; try congruence
            |intros (H1 & H2 & H3); try congruence; try exact H3; try (rewrite H3; reflexivity)]).
Qed.

Lemma flt_le a b : flt a b = true -> fle a b = true.
Proof. rewrite flt_iff. intros (H1 & H2 & H3). apply fle_total; auto. Qed.

Lemma flt_not_nan a b : flt a b = true -> a <> NaN /\ b <> NaN.
Proof. rewrite flt_iff. tauto. Qed.

Lemma flt_le_trans a b c : flt a b = true -> fle b c = true -> flt a c = true.
Proof.
  rewrite !flt_iff. intros (H1 & H2 & H3) H4. pose proof (fle_not_nan _ _ H4) as [_ H5].
  repeat split; auto. destruct (fle c a) eqn:E; auto.
  rewrite <- H3. symmetry. eapply fle_trans; eauto.
Qed.

Lemma fle_lt_trans a b c : fle a b = true -> flt b c = true -> flt a c = true.
Proof.
  rewrite !flt_iff. intros H4 (H1 & H2 & H3). pose proof (fle_not_nan _ _ H4) as [H5 _].
  repeat split; auto. destruct (fle c a) eqn:E; auto.
  rewrite <- H3. symmetry. eapply fle_trans; eauto.
Qed.

Lemma flt_trans a b c : flt a b = true -> flt b c = true -> flt a c = true.
Proof. intros H1 H2. eapply flt_le_trans; eauto using flt_le. Qed.

Lemma flt_irrefl a : flt a a = false.
Proof.
  destruct (flt a a) eqn:E; auto. apply flt_iff in E. destruct E as (H1 & _ & H3).
  rewrite fle_refl in H3; auto.
Qed.

Lemma flt_not_eq a b : flt a b = true -> feq a b = false.
Proof.
  intro H. destruct (feq a b) eqn:E; auto. apply feq_iff in E. destruct E as [_ E].
  apply flt_iff in H. destruct H as (_ & _ & H). congruence.
Qed.

Lemma fle_neq_lt a b : fle a b = true -> feq a b = false -> flt a b = true.
Proof.
  intros H1 H2. apply flt_iff. pose proof (fle_not_nan _ _ H1) as [? ?]. repeat split; auto.
  unfold feq in H2. rewrite H1 in H2. exact H2.
Qed.

Lemma not_fle_lt a b : a <> NaN -> b <> NaN -> fle a b = false -> flt b a = true.
Proof. intros. apply flt_iff. auto. Qed.

Lemma fle_feq_l a a' b : feq a a' = true -> fle a b = fle a' b.
Proof.
  rewrite feq_iff. intros [H1 H2].
  destruct (fle a b) eqn:E1, (fle a' b) eqn:E2; auto.
  - rewrite <- E2. symmetry. eapply fle_trans; eauto.
  - rewrite <- E1. eapply fle_trans; eauto.
Qed.

Lemma fle_feq_r a b b' : feq b b' = true -> fle a b = fle a b'.
Proof.
  rewrite feq_iff. intros [H1 H2].
  destruct (fle a b) eqn:E1, (fle a b') eqn:E2; auto.
  - rewrite <- E2. symmetry. eapply fle_trans; eauto.
  - rewrite <- E1. eapply fle_trans; eauto.
Qed.

Lemma feq_Fin x y : feq (Fin x) (Fin y) = true <-> (x == y)%Q.
Proof.
  rewrite feq_iff. cbn [fle]. rewrite !Qle_bool_iff. split; [intros []; lra | intro H; split; lra].
Qed.

Lemma fle_Fin x y : fle (Fin x) (Fin y) = true <-> (x <= y)%Q.
Proof. cbn [fle]. apply Qle_bool_iff. Qed.

Lemma fle_Fin_false x y : fle (Fin x) (Fin y) = false <-> (y < x)%Q.
Proof. cbn [fle]. apply Qle_bool_false. Qed.

Lemma flt_Fin x y : flt (Fin x) (Fin y) = true <-> (x < y)%Q.
Proof.
  rewrite flt_iff. rewrite fle_Fin_false. split; [tauto|]. intro H; repeat split; auto; discriminate.
Qed.
