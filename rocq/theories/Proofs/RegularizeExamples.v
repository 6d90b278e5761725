(** Concrete inputs of the regularisation properties. *)
From Coq Require Import List Bool Reals Lia Lra.
From Verif.Model Require Import Train Regularize.
From Verif.Spec Require Import RegularizeSpec.
From Verif.Proofs Require Import TrainFacts TrainExamples LinkFacts ImportanceFacts TotalFacts RegularizeFacts NeighborFacts NeutralizeFacts RegressionFacts.
Import ListNotations.
Local Open Scope R_scope.

Definition g_x : list R := [1; 3; 5].
Definition g_u : list R := [1; 1; 2].
Lemma ex_c34 : regularize_to_error_weighted_mean g_x g_u (Some 3) =
  Some [Some (47 / 29); Some 3; Some (26 / 7)].
Proof.
  unfold regularize_to_error_weighted_mean, allclose, isclose, g_x, g_u. cbn [Nat.eqb length negb forallb existsb].
  rewrite (Rabs_left (1 - 3)) by lra. rewrite (Rabs_right 3) by lra.
  rewrite (proj2 (Rleb_false (- (1 - 3)) _)) by lra. cbn [andb].
  repeat (rewrite (proj2 (Reqb_false_iff _ _)) by lra). cbn [orb]. cbn [map map2 sumR].
  apply f_equal. repeat (apply f_equal2; [apply f_equal; field|]). reflexivity.
Qed.
Lemma ex_c34_input : length g_x = length g_u /\ (forall v, In v g_u -> 0 < v) /\ ~ nearly_all g_x 3.
Proof.
  split; [reflexivity|]. split; [cbn; intros v H; repeat destruct H as [<-|H]; lra || tauto|].
  intros H. specialize (H 1 (or_introl eq_refl)). rewrite (Rabs_left (1 - 3)), (Rabs_right 3) in H; lra.
Qed.
Lemma ex_c34_zero : regularize_to_error_weighted_mean [1; 3] [0; 1] None = Some [None; None].
Proof.
  apply (mean_zero_uncertainty [1; 3] [0; 1] None); [reflexivity|left; reflexivity|]. split; [cbn; lia|].
  intros H. specialize (H 3 (or_intror (or_introl eq_refl))). cbn [nth] in H.
  rewrite (Rabs_right (3 - 1)), (Rabs_right 1) in H; lra.
Qed.

Lemma ex_c35 : regularize_to_prior_expectation 11 2 1 (3 / 2) = Some (1 + sqrt 91) /\
  regularize_to_prior_expectation 3 2 1 (3 / 2) = Some 1 /\ regularize_to_prior_expectation 2 0 1 (3 / 2) = None.
Proof.
  split; [|split].
  - rewrite prior_value; [|lra|lra|rewrite Rabs_right; lra].
    replace (Rltb 1 11) with true by (symmetry; apply Rltb_iff; lra). do 2 f_equal. rewrite Rmult_1_l. f_equal. field.
  - apply prior_insignificant; [lra|]. rewrite Rabs_right; lra.
  - unfold regularize_to_prior_expectation. rewrite (proj2 (Reqb_iff 0 0)) by reflexivity.
    rewrite (proj2 (Reqb_false_iff 2 1)) by lra. reflexivity.
Qed.

Lemma neighbors_constant : exists x u, length x = length u /\ (forall v, In v u -> 0 < v) /\ (forall v, In v x -> v = 7) /\
  (3 <= length x)%nat /\ regularize_neighbors 3 x u = Some (map (fun _ => None) x).
Proof.
  exists [7; 7; 7], [1; 1; 1]. split; [reflexivity|]. split; [cbn; intros v H; repeat destruct H as [<-|H]; lra || tauto|].
  split; [cbn; intros v H; repeat destruct H as [<-|H]; lra || tauto|]. split; [cbn; lia|].
  rewrite neighbors_form by (cbn; lia). f_equal.
  assert (H : forall i, (i < 3)%nat -> neighbor_value [7; 7; 7] [1; 1; 1] i = None).
  { intros i I. destruct (neighbors_undefined [7; 7; 7] [1; 1; 1] i) as (r & E & V); try (cbn; lia).
    - intros j k J K _ _ _ _. cbn in J, K. destruct j as [|[|[|]]], k as [|[|[|]]]; try lia; reflexivity.
    - rewrite neighbors_form in E by (cbn; lia). injection E as <-. cbn [length seq map] in V.
      destruct i as [|[|[|]]]; try lia; cbn [nth_error] in V; injection V as V; exact V. }
  cbn [length seq map]. rewrite !H by lia. reflexivity.
Qed.
Lemma ex_c56 : exists r v, regularize_neighbors 3 [1; 3; 5] [1; 1; 2] = Some r /\ nth_error r 0 = Some (Some v) /\
  window_mean [1; 3; 5] [1; 1; 2] 0 = 2 /\ v = 3 / 2.
Proof.
  assert (P1 : Rltb 0 1 = true) by (apply Rltb_iff; lra). assert (P2 : Rltb 0 2 = true) by (apply Rltb_iff; lra).
  assert (M : window_mean [1; 3; 5] [1; 1; 2] 0 = 2).
  { unfold window_mean, neighbor_sum, total, bin_weight. cbn [length seq map sumR nth Nat.leb plus andb]. rewrite P1. field. }
  eexists. eexists. split; [apply neighbors_form; cbn; lia|]. cbn [length seq map nth_error].
  split; [|split; [exact M|]].
  - f_equal. unfold neighbor_value. rewrite M. unfold neighbor_sum, total, bin_weight.
    cbn [length seq map sumR nth Nat.leb plus andb]. rewrite P1.
    rewrite (proj2 (Reqb_false_iff _ _)) by lra. rewrite (proj2 (Reqb_false_iff _ _)) by lra. reflexivity.
  - field.
Qed.
Lemma ex_c56_input : length [1; 3; 5] = length [1; 1; 2] /\ (3 <= length [1; 3; 5])%nat /\
  exists j k, (j < 3)%nat /\ (k < 3)%nat /\ neighbor 0 j /\ neighbor 0 k /\
     0 < nth j [1; 1; 2] 0 /\ 0 < nth k [1; 1; 2] 0 /\ nth j [1; 3; 5] 0 <> nth k [1; 3; 5] 0.
Proof. split; [reflexivity|]. split; [cbn; lia|]. exists 0%nat, 1%nat. unfold neighbor. cbn. repeat split; try lia; lra. Qed.

(** A table with strongly correlated dimensions. *)
Definition n_u : table := [[1; 9]; [9; 1]].
Definition n_t : table := [[100; 0]; [0; 0]].
Lemma n_tables : is_table 2 2 n_t /\ is_table 2 2 n_u /\ positive_table 2 2 n_u.
Proof.
  split; [|split].
  - split; [reflexivity|]. cbn. intros r [<-|[<-|[]]]; reflexivity.
  - split; [reflexivity|]. cbn. intros r [<-|[<-|[]]]; reflexivity.
  - intros i j I J. destruct i as [|[|i]], j as [|[|j]]; try lia; cbn; lra.
Qed.
Lemma round_value a b c d : a + 9 * b = 9 * c * (-1) - d -> a + 9 * c = 0 ->  9 * b + d = 0 ->
  let e := (a + 9 * b) / 10 in
  let f := (a - e + 9 * (c + e)) / 10 in
  round n_u [[a; b]; [c; d]] (row_sums (weighted [[a; b]; [c; d]] n_u)) = [[a - e - f; b - e + f]; [c + e - f; d + e + f]].
Proof.
  intros H1 H2 H3 e f. unfold round, sub_rows, sub_cols, weighted, row_sums, col_sums, n_u.
  cbn [map map2 sumR hd length seq nth]. unfold f, e.
  repeat (apply f_equal2); try reflexivity; try field; lra.
Qed.
Lemma n_first : round n_u n_t (row_sums (weighted n_t n_u)) = [[81; -1]; [-9; 9]].
Proof.
  unfold round, sub_rows, sub_cols, weighted, row_sums, col_sums, n_u, n_t.
  cbn [map map2 sumR hd length seq nth]. repeat (apply f_equal2); try reflexivity; lra.
Qed.
Lemma n_round a b c d a' b' c' d' : a + 9 * b = - (9 * c + d) -> a + 9 * c = 0 -> 9 * b + d = 0 ->
  (a', b', c', d') = (let e := (a + 9 * b) / 10 in let f := (a - e + 9 * (c + e)) / 10 in
                      (a - e - f, b - e + f, c + e - f, d + e + f)) ->
  round n_u [[a; b]; [c; d]] (row_sums (weighted [[a; b]; [c; d]] n_u)) = [[a'; b']; [c'; d']].
Proof. intros H1 H2 H3 E. rewrite round_value by lra. cbn zeta. injection E as -> -> -> ->. reflexivity. Qed.
Lemma n_deviation a b c d : 0 < a + 9 * b -> a + 9 * b = - (9 * c + d) -> a + 9 * c = 0 -> 9 * b + d = 0 ->
  round_deviation n_u [[a; b]; [c; d]] = 2 * (a + 9 * b).
Proof.
  intros P H1 H2 H3. unfold round_deviation, weighted, row_sums, col_sums, n_u. cbn [map map2 sumR hd length seq nth].
  rewrite (Rabs_right (a * 1 + (b * 9 + 0))) by lra. rewrite (Rabs_left (c * 9 + (d * 1 + 0))) by lra.
  replace (a * 1 + (c * 9 + 0)) with 0 by lra. replace (b * 9 + (d * 1 + 0)) with 0 by lra. rewrite Rabs_R0. lra.
Qed.
Definition n_r : table := [[54437184 / 1000000; - 3951424 / 1000000]; [- 6048576 / 1000000; 35562816 / 1000000]].
Lemma n_result : neutralize_one_dim_influence 5 n_t n_u = Some (n_r, 4%nat).
Proof.
  unfold neutralize_one_dim_influence. rewrite loop_unfold.
  replace (Rltb (1 / 100) 100) with true by (symmetry; apply Rltb_iff; lra). cbn [andb Nat.ltb Nat.leb plus].
  rewrite n_first. rewrite loop_unfold, n_deviation by lra.
  rewrite (proj2 (Rltb_iff _ _)) by lra. cbn [andb Nat.ltb Nat.leb plus].
  rewrite (n_round 81 (-1) (-9) 9 (6804 / 100) (- 244 / 100) (- 756 / 100) (2196 / 100)) by (try lra; cbn zeta; repeat apply f_equal2; lra).
  rewrite loop_unfold, n_deviation by lra. rewrite (proj2 (Rltb_iff _ _)) by lra. cbn [andb Nat.ltb Nat.leb plus].
  rewrite (n_round _ _ _ _ (597456 / 10000) (- 33616 / 10000) (- 66384 / 10000) (302544 / 10000)) by (try lra; cbn zeta; repeat apply f_equal2; lra).
  rewrite loop_unfold, n_deviation by lra. rewrite (proj2 (Rltb_iff _ _)) by lra. cbn [andb Nat.ltb Nat.leb plus].
  rewrite (n_round _ _ _ _ (54437184 / 1000000) (- 3951424 / 1000000) (- 6048576 / 1000000) (35562816 / 1000000)) by (try lra; cbn zeta; repeat apply f_equal2; lra).
  rewrite loop_unfold. cbn [Nat.ltb Nat.leb]. rewrite andb_false_r. reflexivity.
Qed.
Lemma row_influence_left : exists t u r it, is_table 2 2 t /\ is_table 2 2 u /\ positive_table 2 2 u /\
  neutralize_one_dim_influence 5 t u = Some (r, it) /\ 18 < row_influence 2 r u 0 /\ row_influence 2 r u 1 < - 18.
Proof.
  exists n_t, n_u, n_r, 4%nat. destruct n_tables as (A & B & C). split; [exact A|]. split; [exact B|]. split; [exact C|].
  split; [exact n_result|]. unfold row_influence, total, entry, n_r, n_u. cbn [seq map sumR nth]. lra.
Qed.
Lemma ex_c46_neutral : let t := [[9; -1]; [-1; 9]] in is_table 2 2 t /\
  (forall i, (i < 2)%nat -> row_influence 2 t n_u i = 0) /\ (forall j, (j < 2)%nat -> column_influence 2 t n_u j = 0).
Proof.
  split; [split; [reflexivity|]; cbn; intros r [<-|[<-|[]]]; reflexivity|].
  split; intros [|[|i]] I; try lia; unfold row_influence, column_influence, total, entry, n_u; cbn [seq map sumR nth]; lra.
Qed.

Definition lr_x : list R := [0; 1; 2].
Definition lr_w : list R := [1; 0; 2].
Lemma ex_c48 : linear_regression lr_x [1; 7; 5] lr_w = Some (1, 2) /\ length lr_w = length lr_x /\
  (forall i, (i < length lr_x)%nat -> 0 <= nth i lr_w 0) /\ spread_out lr_x lr_w.
Proof.
  split; [|split; [reflexivity|split]].
  - unfold linear_regression, lr_x, lr_w. cbn [map map2 sumR].
    rewrite (proj2 (Reqb_false_iff _ _)) by lra. apply f_equal, f_equal2; field.
  - intros i I. destruct i as [|[|[|i]]]; cbn in *; try lra; lia.
  - exists 0%nat, 2%nat. cbn. repeat split; try lia; lra.
Qed.
Lemma ex_c48_degenerate : ~ spread_out [1; 2] [1; 0].
Proof. intros (i & j & I & J & Pi & Pj & N). destruct i as [|[|]], j as [|[|]]; cbn in *; try lia; lra. Qed.
