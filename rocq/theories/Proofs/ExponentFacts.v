(** The Newton steps of a training of the price model minimise the loss of ExponentSpec.v. *)
From Coq Require Import List Bool Arith Lia Reals Lra QArith Qreals FunctionalExtensionality.
From Verif.Model Require Import Num Train WholeFit Price PriceFit.
From Verif.Spec Require Import PriceSpec ExponentSpec.
From Verif.Proofs Require Import PriceFacts.
Import ListNotations.
Local Open Scope R_scope.

Definition as_row (a c : R) (e : placed) : price_row :=
  exponent_row a c (row_of e) {| lr_factors := standard_part e; lr_prior_exponents := q_exponent (row_of e);
    lr_exponents := external_part e; lr_base := external_base (q_price (row_of e)) |} (its_bin e).
Lemma rows_placed : forall a c lex D (L : list (R * R)),
  map2 (fun rl b => exponent_row a c (fst rl) (snd rl) b)
    (combine D (map2 (fun r fe => {| lr_factors := fst fe; lr_prior_exponents := q_exponent r; lr_exponents := snd fe;
                       lr_base := external_base (q_price r) |}) D L)) lex
  = map (as_row a c) (combine (combine D L) lex).
Proof.
  intros a c lex D; revert lex. induction D as [|r D IH]; intros lex L; [reflexivity|]. destruct L as [|[u v] L]; [reflexivity|].
  destruct lex as [|b lex]; [reflexivity|]. cbn [map2 combine map]. rewrite IH. reflexivity.
Qed.
Lemma exponent_rows_placed : forall a c lex D p, exponent_rows a c lex D p = map (as_row a c) (placed_rows lex D p).
Proof. intros. apply rows_placed. Qed.
Lemma placed_in : forall lex D p e, In e (placed_rows lex D p) -> In (row_of e) D.
Proof. intros lex D p [[r fe] b] H. apply in_combine_l in H. now apply in_combine_l in H. Qed.
Lemma rows_in_placed : forall a c b E, rows_in b (map (as_row a c) E) = map (as_row a c) (rows_of_bin b E).
Proof.
  intros a c b E. induction E as [|e E IH]; [reflexivity|]. unfold rows_in, rows_of_bin in *. cbn [map filter].
  change (pr_bin (as_row a c e)) with (its_bin e). destruct (Nat.eqb (its_bin e) b); cbn [map]; now rewrite IH.
Qed.
Lemma error_placed : forall a c e l, row_error (as_row a c e) l = priced_error a c e l.
Proof.
  intros a c e l. unfold row_error, priced_error, as_row, exponent_row, external_weight, predict_link, exponents.
  cbn [pr_s pr_y pr_p pr_k pr_x lr_factors lr_exponents lr_prior_exponents lr_base].
  destruct (q_price (row_of e)) as [q| | |]; cbn [isfinite external_base]; try (unfold Rdiv; rewrite !Rmult_0_l; reflexivity).
  unfold predicted, exponent_so_far. rewrite <- exp_plus, !Rmult_1_r. unfold Rdiv. ring.
Qed.
Lemma penalty_placed : forall a c e l, q_exponent (row_of e) <> 0 -> row_penalty (as_row a c e) l = exponent_penalty e l.
Proof.
  intros a c e l H. unfold row_penalty, exponent_penalty, as_row, exponent_row, exponents, exponent_so_far.
  cbn [pr_lkp pr_prior pr_k lr_exponents lr_prior_exponents].
  replace (q_exponent (row_of e) * exp (external_part e) / q_exponent (row_of e)) with (exp (external_part e)) by (field; exact H).
  rewrite ln_exp. reflexivity.
Qed.
Lemma total_is_sum : forall l, total l = sumR l.
Proof. unfold total. induction l as [|x l IH]; [reflexivity|]. cbn [fold_right sumR]. now rewrite IH. Qed.
Lemma loss_placed : forall a c var_l E b l, (forall e, In e E -> q_exponent (row_of e) <> 0) ->
  bin_loss (map (as_row a c) E) var_l b l = exponent_loss a c var_l E b l.
Proof.
  intros a c var_l E b l H. unfold bin_loss, exponent_loss. rewrite rows_in_placed, map_length, !map_map. rewrite (total_is_sum (map (fun e => priced_error a c e l) _)), (total_is_sum (map (fun e => exponent_penalty e l) _)).
  f_equal; [|f_equal; f_equal]; f_equal; apply map_ext_in; intros e He; [apply error_placed|].
  apply penalty_placed. apply H. unfold rows_of_bin in He. now apply filter_In in He.
Qed.
Lemma training_step : forall a c var_l lex D p ls b l, (forall r, In r D -> q_exponent r <> 0) ->
  nth_error ls b = Some l -> 0 < l -> rows_of_bin b (placed_rows lex D p) <> [] ->
  let loss := exponent_loss a c var_l (placed_rows lex D p) b in
  exists s j h g, nth_error (newton_step (exponent_rows a c lex D p) var_l ls) b = Some s /\ jac s = RFin j /\ hess s = RFin h /\
    derivable_pt_lim loss l j /\ (forall x, 0 < x -> derivable_pt_lim loss x (g x)) /\ derivable_pt_lim g l h /\
    (h <> 0 -> new_l s = RFin (l - j / h)) /\ (h = 0 -> new_l s = RNaN).
Proof.
  intros a c var_l lex D p ls b l Hd Hl Hp Hb loss. rewrite exponent_rows_placed.
  assert (E : loss = bin_loss (map (as_row a c) (placed_rows lex D p)) var_l b).
  { apply functional_extensionality. intro x. symmetry. apply loss_placed. intros e He. apply Hd. exact (placed_in _ _ _ _ He). }
  rewrite E. apply step_exact; [exact Hl|exact Hp|]. rewrite rows_in_placed. intro K. apply Hb. now apply map_eq_nil in K.
Qed.

(** A priced and an unpriced row in one bin. *)
Definition two_offers : list price_sample :=
  [{| q_row := {| x_bins := fun _ => []; x_prior := None; x_y := 3; x_w := 2 |}; q_price := Fin (1 # 2); q_exponent := -1 |};
   {| q_row := {| x_bins := fun _ => []; x_prior := None; x_y := 1; x_w := 1 |}; q_price := NaN; q_exponent := -1 |}].
Lemma two_offers_case : (forall r, In r two_offers -> q_exponent r <> 0) /\
  length (rows_of_bin 0 (placed_rows [0%nat; 0%nat] two_offers {| p_factors := [0; 1]; p_exponents := [1; 0] |})) = 2%nat.
Proof. split; [|reflexivity]. intros r [<-|[<-|[]]]; cbn; lra. Qed.
