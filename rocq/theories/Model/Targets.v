(** Model of the checks of [fit] on its data (base.py:700-702, 946-957 and the
    [_check_y] methods). *)
From Coq Require Import ZArith QArith List Bool.
From Verif.Model Require Import Num.
Import ListNotations.

(** The estimators. *)
Inductive estimator :=
| Poisson | NBinomRegression | Exponential | MultiplicativeQuantile | MultiplicativeGeneric | NBinomC
| Location | LocPoisson | AdditiveQuantile | AdditiveGeneric
| Classifier | GenericClassifier
| GBS.

(** [_check_y]: [true] if the target is accepted, else ValueError
    (regression.py:69-74; nbinom.py:101-106; generic_loss.py:461, 522, 590-609, 664,
    729, 793; location.py:31-34, 164-167; classification.py:66-72;
    GBSregression.py:93-94; price.py inherits from regression.py). *)
Definition check_y_multiplicative (y : list fnum) : bool := forallb (fun v => fge v (Fin 0)) y.
Definition check_y_additive (y : list fnum) : bool := forallb isfinite y.
Definition check_y_classification (y : list fnum) : bool := forallb (fun v => feq v (Fin 0) || feq v (Fin 1)) y.
Definition check_y (e : estimator) (y : list fnum) : bool :=
  match e with
  | Poisson | NBinomRegression | Exponential | MultiplicativeQuantile | MultiplicativeGeneric | NBinomC =>
      check_y_multiplicative y
  | Location | LocPoisson | AdditiveQuantile | AdditiveGeneric => check_y_additive y
  | Classifier | GenericClassifier => check_y_classification y
  | GBS => true
  end.

(** [_check_len_data] (base.py:946-949). The condition [len(X) == 0 | len(y) == 0]
    is the chained comparison [len(X) == (0 | len(y)) == 0]. *)
Definition check_len_data (len_X len_y : nat) : bool :=
  negb (Nat.eqb len_X (Nat.lor 0 len_y) && Nat.eqb (Nat.lor 0 len_y) 0).

(** The two checks at the start of [_init_fit] (base.py:701-702); [true]: passed. *)
Definition fit_checks (e : estimator) (len_X : nat) (y : list fnum) : bool :=
  check_len_data len_X (length y) && check_y e y.
