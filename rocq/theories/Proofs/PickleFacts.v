(** Facts on saving and loading. *)
From Coq Require Import List Bool Reals String Lia Lra.
From Verif.Model Require Import Train Pickle.
From Verif.Spec Require Import PickleSpec.
From Verif.Proofs Require Import LinkFacts.
Import ListNotations.
Local Open Scope R_scope.

Lemma find_entries a : forall s j, (s <= j < s + List.length a)%nat ->
  match find (fun e => Nat.eqb (fst e) j) (filter (fun e => nonzero (snd e)) (combine (seq s (List.length a)) a)) with
  | Some e => snd e | None => Some 0 end = nth (j - s) a None.
Proof.
  induction a as [|v a IH]; intros s j H; cbn in H; [lia|]. cbn [List.length seq combine filter snd].
  destruct (Nat.eq_dec j s) as [->|N].
  - rewrite Nat.sub_diag. cbn [nth]. destruct (nonzero v) eqn:E.
    + cbn [find fst]. now rewrite Nat.eqb_refl.
    + destruct v as [x|]; [|discriminate]. cbn in E. apply negb_false_iff in E. apply Reqb_iff in E. subst x.
      destruct (find _ _) as [[i w]|] eqn:F; [exfalso|reflexivity]. apply find_some in F. destruct F as [I Q]. cbn in Q. apply Nat.eqb_eq in Q. subst i.
      apply filter_In in I. destruct I as [I _]. apply in_combine_l in I. apply in_seq in I. lia.
  - replace (j - s)%nat with (S (j - S s)) by lia. cbn [nth]. rewrite <- (IH (S s) j) by lia.
    destruct (nonzero v); [|reflexivity]. cbn [find fst]. destruct (Nat.eqb_spec s j); [lia|reflexivity].
Qed.
Lemma csr_round_trip a : toarray (csr_matrix a) = a.
Proof.
  unfold toarray, csr_matrix. cbn [c_cols c_entries].
  assert (H : forall b s, (forall j, (s <= j < s + List.length b)%nat -> nth (j - s) b None = nth j a None) ->
    (s + List.length b <= List.length a)%nat ->
    map (fun j => match find (fun e => Nat.eqb (fst e) j) (filter (fun e => nonzero (snd e)) (combine (seq 0 (List.length a)) a)) with
                  | Some e => snd e | None => Some 0 end) (seq s (List.length b)) = b).
  { induction b as [|v b IH]; intros s G L; [reflexivity|]. cbn [List.length seq map] in *. f_equal.
    - rewrite find_entries by lia. rewrite Nat.sub_0_r. rewrite <- G by lia. now rewrite Nat.sub_diag.
    - apply IH; [|lia]. intros j J. rewrite <- G by lia. replace (j - s)%nat with (S (j - S s)) by lia. reflexivity. }
  apply (H a 0%nat); [|apply le_n]. intros j J. now rewrite Nat.sub_0_r.
Qed.

Lemma get_set d k v k' : get_attr (set_attr d k v) k' = if String.eqb k k' then Some v else get_attr d k'.
Proof.
  unfold get_attr. induction d as [|[a b] d IH]; cbn [set_attr].
  - cbn. destruct (String.eqb k k'); reflexivity.
  - destruct (String.eqb_spec a k) as [->|N].
    + cbn. destruct (String.eqb_spec k k'); reflexivity.
    + cbn [find fst]. destruct (String.eqb_spec a k') as [->|N'].
      * cbn. destruct (String.eqb_spec k k'); [congruence|reflexivity].
      * exact IH.
Qed.
Lemma get_keys d k : get_attr d k <> None <-> In k (map fst d).
Proof.
  unfold get_attr. induction d as [|[a b] d IH]; cbn; [split; [congruence|intros []]|].
  destruct (String.eqb_spec a k) as [->|N]; cbn; [split; [auto|discriminate]|]. rewrite IH. split; [auto|]. intros [Q|Q]; [congruence|exact Q].
Qed.
Lemma set_keys d k v : get_attr d k <> None -> map fst (set_attr d k v) = map fst d.
Proof.
  rewrite get_keys. induction d as [|[a b] d IH]; intro I; [destruct I|]. cbn [set_attr]. destruct (String.eqb_spec a k) as [->|N]; [reflexivity|].
  cbn [map fst]. f_equal. apply IH. destruct I as [Q|I]; [cbn in Q; congruence|exact I].
Qed.
Lemma dict_ext d d' : NoDup (map fst d) -> map fst d = map fst d' -> (forall k, get_attr d k = get_attr d' k) -> d = d'.
Proof.
  revert d'. induction d as [|[a b] d IH]; intros [|[a' b'] d'] ND E G; cbn in E; try discriminate; [reflexivity|].
  injection E as <- E. inversion_clear ND as [|? ? NI ND']. pose proof (G a) as Ga. unfold get_attr in Ga. cbn in Ga. rewrite !String.eqb_refl in Ga. cbn in Ga.
  injection Ga as <-. f_equal. apply IH; [exact ND'|exact E|]. intro k. specialize (G k). unfold get_attr in *. cbn in G.
  destruct (String.eqb_spec a k) as [->|N]; [|exact G].
  destruct (find (fun e => String.eqb (fst e) k) d) as [e|] eqn:F.
  { exfalso. apply NI. apply find_some in F. destruct F as [I Q]. apply String.eqb_eq in Q. subst. apply in_map. exact I. }
  destruct (find (fun e => String.eqb (fst e) k) d') as [e|] eqn:F'; [|reflexivity].
  exfalso. apply NI. rewrite E. apply find_some in F'. destruct F' as [I Q]. apply String.eqb_eq in Q. subst. apply in_map. exact I.
Qed.

Definition to_sparse (a : attr) : attr := match a with Array l => Sparse (csr_matrix l) | _ => a end.
Definition to_array (a : attr) : attr := match a with Sparse m => Array (toarray m) | _ => a end.
Lemma save_get elems : forall d,
  let s := fold_left (fun state elem => match get_attr state elem with
                                | Some (Array l) => set_attr state elem (Sparse (csr_matrix l)) | _ => state end) elems d in
  map fst s = map fst d /\ forall k, get_attr s k = if existsb (String.eqb k) elems then option_map to_sparse (get_attr d k) else get_attr d k.
Proof.
  induction elems as [|e elems IH]; intro d; cbn [fold_left existsb]; [split; [reflexivity|intro; reflexivity]|].
  destruct (get_attr d e) as [[|l|m|t]|] eqn:E; cbv zeta in *;
    try (destruct (IH d) as [K G]; split; [exact K|]; intro k; rewrite G; destruct (String.eqb_spec k e) as [->|N]; cbn [orb]; [rewrite E; cbn; destruct (existsb _ elems); reflexivity|reflexivity]).
  destruct (IH (set_attr d e (Sparse (csr_matrix l)))) as [K G]. split; [rewrite K; apply set_keys; congruence|].
  intro k. rewrite G, get_set. destruct (String.eqb_spec k e) as [->|N]; cbn [orb].
  - rewrite String.eqb_refl, E. cbn. destruct (existsb _ elems); reflexivity.
  - destruct (String.eqb_spec e k); [congruence|]. reflexivity.
Qed.
Lemma load_get elems : forall d,
  let s := fold_left (fun state elem => match get_attr state elem with
                                | Some (Sparse m) => set_attr state elem (Array (toarray m)) | _ => state end) elems d in
  map fst s = map fst d /\ forall k, get_attr s k = if existsb (String.eqb k) elems then option_map to_array (get_attr d k) else get_attr d k.
Proof.
  induction elems as [|e elems IH]; intro d; cbn [fold_left existsb]; [split; [reflexivity|intro; reflexivity]|].
  destruct (get_attr d e) as [[|l|m|t]|] eqn:E; cbv zeta in *;
    try (destruct (IH d) as [K G]; split; [exact K|]; intro k; rewrite G; destruct (String.eqb_spec k e) as [->|N]; cbn [orb]; [rewrite E; cbn; destruct (existsb _ elems); reflexivity|reflexivity]).
  destruct (IH (set_attr d e (Array (toarray m)))) as [K G]. split; [rewrite K; apply set_keys; congruence|].
  intro k. rewrite G, get_set. destruct (String.eqb_spec k e) as [->|N]; cbn [orb].
  - rewrite String.eqb_refl, E. cbn. destruct (existsb _ elems); reflexivity.
  - destruct (String.eqb_spec e k); [congruence|]. reflexivity.
Qed.
Lemma set_new d k v : ~ In k (map fst d) -> set_attr d k v = d ++ [(k, v)].
Proof.
  induction d as [|[a b] d IH]; intro N; [reflexivity|]. cbn [set_attr]. destruct (String.eqb_spec a k) as [->|Q]; [exfalso; apply N; left; reflexivity|].
  cbn. f_equal. apply IH. intro I. apply N. right; exact I.
Qed.
Lemma update_new s : forall d, NoDup (map fst d ++ map fst s) -> update d s = d ++ s.
Proof.
  unfold update. induction s as [|[k v] s IH]; intros d ND; cbn [fold_left fst snd]; [now rewrite app_nil_r|].
  cbn in ND. pose proof (NoDup_remove_2 _ _ _ ND) as NI. rewrite set_new by (intro I; apply NI; apply in_or_app; left; exact I).
  rewrite IH; [now rewrite <- app_assoc|]. rewrite map_app. cbn [map fst]. now rewrite <- app_assoc.
Qed.

Lemma round_trip elems object : object_attrs object ->
  fst (getstate elems object) = object /\ setstate elems [] (snd (getstate elems object)) = object.
Proof.
  intros [ND NS]. split; [reflexivity|]. unfold setstate, getstate. cbn [snd].
  destruct (save_get elems object) as [K G]. cbv zeta in K, G. set (saved := fold_left _ elems object) in *.
  destruct (load_get elems saved) as [K' G']. cbv zeta in K', G'. set (loaded := fold_left _ elems saved) in *.
  rewrite update_new by (cbn; rewrite K', K; exact ND). cbn [app]. symmetry. apply dict_ext; [exact ND|congruence|].
  intro k. rewrite G', G. destruct (existsb (String.eqb k) elems); [|reflexivity].
  destruct (get_attr object k) as [a|] eqn:E; [|reflexivity]. cbn. f_equal. destruct a as [|l|m|t]; try reflexivity.
  - cbn [to_sparse to_array]. now rewrite csr_round_trip.
  - exfalso. exact (NS k m E).
Qed.
Lemma saved_sparse elems object k l : object_attrs object -> In k elems -> get_attr object k = Some (Array l) ->
  get_attr (snd (getstate elems object)) k = Some (Sparse (csr_matrix l)) /\
  Forall (fun e => nonzero (snd e) = true) (c_entries (csr_matrix l)).
Proof.
  intros _ I E. unfold getstate. cbn [snd]. destruct (save_get elems object) as [_ G]. split.
  - rewrite G, E. assert (X : existsb (String.eqb k) elems = true) by (apply existsb_exists; exists k; split; [exact I|apply String.eqb_refl]). now rewrite X.
  - apply Forall_forall. intros e J. cbn in J. apply filter_In in J. apply J.
Qed.

Definition ex_object : attrs :=
  [("ndim_"%string, Other 2); ("bin_weights_"%string, Array [Some 0; Some 3]); ("smoothed_y_"%string, Array [None; Some 0])].
Lemma ex_object_ok : object_attrs ex_object.
Proof.
  split.
  - cbn. repeat constructor; cbn; intuition discriminate.
  - intros k m. unfold get_attr, ex_object. cbn [find fst].
    repeat match goal with |- context [String.eqb ?a k] => destruct (String.eqb a k) end; cbn; discriminate.
Qed.
