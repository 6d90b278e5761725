(** Larger codes in the same order for the three-row frame of RecodeExamples.v. *)
From Coq Require Import ZArith NArith QArith Qabs List Bool Reals Lia Lqa.
From Verif.Proofs Require Import TrainExamples WholeExamples RelabelExamples RefitExamples PipeExamples RecodeExamples.
From Verif.Model Require Import Num Flags Ecdf BinTransform Frames LexBins Train Predict Link Estimators WholeFit BinSmoothers Refit Pipe.
From Verif.Spec Require Import FrameSpec PipeSpec RefitSpec RecodeSpec.
Import ListNotations.

Lemma far_from l q : (forall a, In (Fin a) l -> (-10 <= a <= 10)%Q) -> (20 <= q)%Q -> new_category l q.
Proof.
  intros H Hq a u w Ia Iu Iw. pose proof (H a Ia). pose proof (H u Iu). pose proof (H w Iw).
  rewrite Qabs_neg by lra. lra.
Qed.
Lemma in_codes (P : Q -> Prop) x y z : P x -> P y -> P z -> forall a, In (Fin a) [Fin x; Fin y; Fin z] -> P a.
Proof. intros Hx Hy Hz a [E|[E|[E|[]]]]; injection E as <-; auto. Qed.

Lemma categories_example gm bppf erfinv bad :
  categorical_column codes_a c_a /\ order_preserving (fun q => q * q * q)%Q /\ table codes /\
  column_is codes c_a [Fin 0; Fin 1; Fin 2] /\ codes_or_missing [Fin 0; Fin 1; Fin 2] /\
  rescaled c_a (fun q => q * q * q)%Q codes <> codes /\
  (forall v, In v [Fin 0; Fin 1; Fin 2; NaN; Fin 20] -> known_or_new (fun q => q * q * q)%Q [Fin 0; Fin 1; Fin 2] v) /\
  (exists P1, pipe_fit gm bppf erfinv bad LocationRegressor None None w_cfg ex_rate r_all d_style 1 c_pipe codes c_y = (None, P1) /\
    pipe_predict LocationRegressor None None P1 codes = Some [1 / 1000; 1 / 1000 + shrink * cc; 1 / 1000 - shrink * cc]%R).
Proof.
  split; [exact codes_categorical|]. split; [exact cube_order|]. split; [exact codes_table|]. split; [left; reflexivity|].
  split; [exact codes_values|]. split; [discriminate|]. split; [|exact (default_run gm bppf erfinv bad)].
  assert (K : forall q, In (Fin q) [Fin 0; Fin 1; Fin 2] -> known_or_new (fun q => q * q * q)%Q [Fin 0; Fin 1; Fin 2] (Fin q)).
  { intros q I. left. exists q. split; [exact I|reflexivity]. }
  intros v [<-|[<-|[<-|[<-|[<-|[]]]]]]; [apply K; cbn; auto|apply K; cbn; auto|apply K; cbn; auto|exact Logic.I|].
  right. split; apply far_from; cbn [map on_values]; try apply in_codes; lra.
Qed.
