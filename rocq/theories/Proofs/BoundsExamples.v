(** Non-vacuity of C122. *)
From Coq Require Import ZArith NArith QArith List Bool String Lia Lqa.
From Verif.Model Require Import Num BinarySearch Flags Ecdf BinTransform Frames BinBounds.
From Verif.Spec Require Import BinningSpec FrameSpec BoundsSpec.
From Verif.Proofs Require Import FrameFacts BoundsFacts.
Import ListNotations.
Local Open Scope Q_scope.
Local Open Scope string_scope.

(** A continuous column with a missing value, repeated values and weights. *)
Definition amounts : list sample :=
  [(Fin 1, 2); (Fin 2, 2); (NaN, 1); (Fin 4, 1); (Fin 4, 3); (Fin 7, 2); (Fin 9, 2); (Fin 11, 4)].
Lemma amounts_column : positive_weights amounts /\ finite_or_nan amounts /\
  (forall x w, In (x, w) amounts -> isfinite x = true -> regular 1 x) /\
  check_flags_consistency 1 = FlagsOk /\ is_continuous_set 1 = true /\ (1#1000) < (1 - (1#10)) / inject_Z 4 /\
  exists e cc, fit_column 1 4 (1#1000) (1#10) amounts = Fitted e [Fin 1; Fin 2; Fin 4; Fin 9; Fin 11] cc /\
    axis_labels true [Fin 1; Fin 2; Fin 4; Fin 9; Fin 11] =
      [Fin (150000#100000); Fin (300000#100000); Fin (650000#100000); Fin (1000000#100000)] /\
    put_in 1 (Fitted e [Fin 1; Fin 2; Fin 4; Fin 9; Fin 11] cc) (Fin (650000#100000)) 2.
Proof.
  split; [|split; [|split; [|split; [|split; [|split]]]]].
  - intros x w H; cbn in H; repeat (destruct H as [H|H]; [injection H as <- <-; lra|]); contradiction.
  - intros x w H; cbn in H; repeat (destruct H as [H|H]; [injection H as <- <-; auto|]); contradiction.
  - intros x w H F. split; [exact F|]. intros (M & _). discriminate M.
  - reflexivity.
  - reflexivity.
  - reflexivity.
  - do 2 eexists. split; [vm_compute; reflexivity|]. split; vm_compute; reflexivity.
Qed.

(** The same column as an ordered one. *)
Lemma amounts_ordered : check_flags_consistency 2 = FlagsOk /\ is_continuous_set 2 = false /\
  exists e cc, fit_column 2 4 (1#1000) (1#10) amounts = Fitted e [Fin 1; Fin 1; Fin 2; Fin 4; Fin 7; Fin 9; Fin 11] cc /\
    axis_labels false [Fin 1; Fin 1; Fin 2; Fin 4; Fin 7; Fin 9; Fin 11] = [Fin 1; Fin 2; Fin 4; Fin 7; Fin 9; Fin 11].
Proof. split; [reflexivity|]. split; [reflexivity|]. do 2 eexists. split; vm_compute; reflexivity. Qed.

(** Two binners, of which the second knows only one of the columns. *)
Definition ex_price : frame := {| fr_df := true; fr_float := true; fr_index := [0; 1]%Z; fr_cols := [(LName "size", [Fin 1; Fin 3])] |}.
Definition ex_other : binner :=
  {| b_bins := fun _ => 2%Z; b_props := None; b_weight := None; b_eps := 0; b_tol := 1#10; b_inplace := false; b_fitted := None |}.
Definition ex_second : binner := match bin_fit ex_other ex_price with FOk b => b | FErr _ => ex_other end.
Lemma second_trained : table ex_price /\ bin_fit ex_other ex_price = FOk ex_second /\
  forall p, ~ feature_column ex_other ex_price (LName "kind") p.
Proof.
  split; [split|split].
  - constructor; [intros []|constructor].
  - intros c v [H|[]]. injection H as <- <-. reflexivity.
  - vm_compute. reflexivity.
  - intros p (H & _). destruct H as [H|[]]. discriminate H.
Qed.
Lemma two_binners : Forall trained [ex_fitted false] /\ Forall (trained_without (LName "kind")) [ex_second] /\
  (exists p f, learned (ex_binner false) ex_train (LName "kind") p f) /\
  exists bb, get_bin_bounds (Some [ex_fitted false; ex_second]) (LName "kind") = Bounds bb /\ List.length bb = 3%nat.
Proof.
  destruct second_trained as (T & F & N).
  split; [repeat constructor; exists (ex_binner false), ex_train; split; [apply ex_tables|apply ex_fit]|].
  split; [repeat constructor; exists ex_other, ex_price; split; [exact T|]; split; [exact F|exact N]|].
  split.
  - destruct (bin_fit_spec _ _ _ (proj1 (proj1 ex_tables)) (ex_fit false)) as (_ & _ & _ & l & B & ND & K & Q & _).
    assert (I : In (LName "kind") (map fst l)).
    { assert (E : b_fitted (ex_fitted false) = Some l) by exact B. vm_compute in E. injection E as <-. cbn. auto. }
    apply in_map_iff in I. destruct I as ([k f] & E & I). cbn in E. subst k. destruct (Q _ _ I) as (_ & p & _ & L). exists p, f. exact L.
  - eexists. split; vm_compute; reflexivity.
Qed.
