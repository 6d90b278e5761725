(** Vocabulary for explanations of predictions of the price model. *)
From Coq Require Import List Bool Reals.
From Verif.Model Require Import Predict.
Import ListNotations.
Local Open Scope R_scope.

(** The product of the contributions reported for row [j] by the external ([e = true]) or by
    the usual groups. *)
Fixpoint reported (e : bool) (ms : list trained) (columns : list (list R)) (j : nat) : R :=
  match ms, columns with
  | m :: r, c :: cs => (if Bool.eqb (m_ext m) e then nth j c 0 else 1) * reported e r cs j
  | _, _ => 1
  end.
