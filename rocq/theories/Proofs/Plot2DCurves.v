(** Which curves the diagrams on the right of a two-dimensional plot show. *)
From Coq Require Import List Bool Arith Reals.
From Verif.Model Require Import Num Train PlotAxis Plot2D.
From Verif.Spec Require Import Plot2DSpec.
Import ListNotations.
Local Open Scope R_scope.

Lemma marginal_parts fuel w s d yp g : plot_marginal fuel w s d yp = Some g ->
  g_smoothed g = map2 marginal_value w s /\
  g_others g = match yp with
               | Some (y, p) => [map2 marginal_value w p; map2 marginal_value w y]
               | None => [map2 marginal_value w d]
               end.
Proof.
  unfold plot_marginal. destruct (get_y_axis _ _ _); [|discriminate]. intro H. injection H as <-. cbn [g_smoothed g_others].
  split; [reflexivity|]. destruct yp as [[y p]|]; reflexivity.
Qed.

Lemma plot_parts fuel n m u s w yp P a b : plot_factor_2d fuel n m u s w yp = Some P -> p_marginals P = Some (a, b) ->
  exists w1 s2 f2, reshaped n m (map filled (removelast w) ++ [last w 0]) = Some w1 /\ reshaped n m s = Some s2 /\
  reshaped n m (shown_first u yp) = Some f2 /\
  g_smoothed a = map2 marginal_value w1 s2 /\ g_smoothed b = map2 marginal_value (transposed m w1) (transposed m s2) /\
  match yp with
  | Some (y, p, _) => exists y2 p2, reshaped n m y = Some y2 /\ reshaped n m p = Some p2 /\
      g_others a = [map2 marginal_value w1 p2; map2 marginal_value w1 y2] /\
      g_others b = [map2 marginal_value (transposed m w1) (transposed m p2); map2 marginal_value (transposed m w1) (transposed m y2)]
  | None => g_others a = [map2 marginal_value w1 f2] /\ g_others b = [map2 marginal_value (transposed m w1) (transposed m f2)]
  end.
Proof.
  unfold plot_factor_2d. change (match yp with Some (_, _, d) => d | None => u end) with (shown_first u yp).
  destruct (reshaped n m (shown_first u yp)) as [f2|] eqn:F; [|discriminate]. destruct (reshaped n m s) as [s2|] eqn:S; [|discriminate].
  destruct yp as [[[y p] d]|].
  - destruct (reshaped n m y) as [y2|] eqn:Y; [|discriminate]. destruct (reshaped n m p) as [p2|] eqn:Q; [|discriminate].
    destruct (Nat.eqb n 0).
    { intro H. injection H as <-. discriminate. }
    destruct (reshaped n m (_ ++ _)) as [w1|] eqn:W; [|discriminate].
    destruct (plot_marginal fuel w1 _ _ _) as [ga|] eqn:A; [|discriminate]. destruct (plot_marginal fuel (transposed m w1) _ _ _) as [gb|] eqn:B; [|discriminate].
    intro H. injection H as <-. intro H. injection H as -> ->.
    apply marginal_parts in A as (A1 & A2). apply marginal_parts in B as (B1 & B2). cbn [option_map fst snd] in B2.
    exists w1, s2, f2. repeat (split; [first [reflexivity|assumption]|]). exists y2, p2. auto.
  - destruct (Nat.eqb n 0).
    { intro H. injection H as <-. discriminate. }
    destruct (reshaped n m (_ ++ _)) as [w1|] eqn:W; [|discriminate].
    destruct (plot_marginal fuel w1 _ _ _) as [ga|] eqn:A; [|discriminate]. destruct (plot_marginal fuel (transposed m w1) _ _ _) as [gb|] eqn:B; [|discriminate].
    intro H. injection H as <-. intro H. injection H as -> ->.
    apply marginal_parts in A as (A1 & A2). apply marginal_parts in B as (B1 & B2). cbn [option_map] in B2.
    exists w1, s2, f2. repeat (split; [first [reflexivity|assumption]|]). auto.
Qed.

Theorem plot_curves n m u s w y p d fuel P a b u1 yp1 f1 P1 a1 b1 u2 yp2 f2 P2 a2 b2 :
  plot_factor_2d fuel n m u s w (Some (y, p, d)) = Some P -> p_marginals P = Some (a, b) ->
  plot_factor_2d f1 n m u1 p w yp1 = Some P1 -> p_marginals P1 = Some (a1, b1) ->
  plot_factor_2d f2 n m u2 y w yp2 = Some P2 -> p_marginals P2 = Some (a2, b2) ->
  g_others a = [g_smoothed a1; g_smoothed a2] /\ g_others b = [g_smoothed b1; g_smoothed b2].
Proof.
  intros H G H1 G1 H2 G2.
  destruct (plot_parts _ _ _ _ _ _ _ _ _ _ H G) as (w1 & s2 & d2 & W & S & D & _ & _ & y2 & p2 & Y & Q & A & B).
  destruct (plot_parts _ _ _ _ _ _ _ _ _ _ H1 G1) as (w1' & s2' & d2' & W' & S' & _ & A1 & B1 & _).
  destruct (plot_parts _ _ _ _ _ _ _ _ _ _ H2 G2) as (w1'' & s2'' & d2'' & W'' & S'' & _ & A2 & B2 & _).
  assert (w1' = w1) by congruence. assert (w1'' = w1) by congruence. assert (s2' = p2) by congruence. assert (s2'' = y2) by congruence. subst.
  rewrite A, B, A1, B1, A2, B2. auto.
Qed.

Theorem plot_single_curve n m u s w fuel P a b u1 yp1 f1 P1 a1 b1 :
  plot_factor_2d fuel n m u s w None = Some P -> p_marginals P = Some (a, b) ->
  plot_factor_2d f1 n m u1 u w yp1 = Some P1 -> p_marginals P1 = Some (a1, b1) ->
  g_others a = [g_smoothed a1] /\ g_others b = [g_smoothed b1].
Proof.
  intros H G H1 G1.
  destruct (plot_parts _ _ _ _ _ _ _ _ _ _ H G) as (w1 & s2 & d2 & W & S & D & _ & _ & A & B).
  destruct (plot_parts _ _ _ _ _ _ _ _ _ _ H1 G1) as (w1' & s2' & d2' & W' & S' & _ & A1 & B1 & _).
  cbn [shown_first] in D. assert (w1' = w1) by congruence. assert (s2' = d2) by congruence. subst.
  rewrite A, B, A1, B1. auto.
Qed.
