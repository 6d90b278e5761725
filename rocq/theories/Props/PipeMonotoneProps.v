(** C106: monotone columns of whole pipelines. *)
From Coq Require Import ZArith NArith QArith List Bool Reals String.
From Verif.Model Require Import Num Flags Ecdf BinTransform Frames Train WholeFit Refit SmootherChoice MetaSmoothers Isotonic Pipe.
From Verif.Spec Require Import FrameSpec RefitSpec PipeSpec IsotonicSpec MonotoneSpec.
From Verif.Proofs Require Import TrainExamples WholeExamples RefitExamples PipeExamples PipeMonotoneExample.
Import ListNotations.
Local Open Scope R_scope.

(** ** C106 *)
(** Of two rows that differ in column c at most, where the second one holds the larger
    number, the second one has the larger prediction if c is declared increasing and the
    smaller one if c is declared decreasing. The smoother of the column is the one that
    the library chooses for its properties; the other columns, their groups, their
    smoothers and the learning rates are arbitrary. *)
Theorem C106_monotone : forall gm bppf erfinv bad k weight prior cfg rate accepted style bins props inplace c p choice use_type use_norm explicit other s,
  declares props c p -> is_continuous_set p = true -> has_magic_missing_set p = false -> (2 <= bins c <= 100000000)%Z ->
  (forall g, g_dim (style g) = List.length g) ->
  choice <> ChoiceNone -> explicit [c] = None -> choice_fct choice use_type use_norm explicit [c] [p] = Some s ->
  fitted_by (smoother_alg other s) (style [c]) -> (forall it m, 0 <= rate it m) -> prior <> Some c ->
  forall fuel o T y P1, table T -> finite_column T c -> List.length y = List.length (fr_index T) -> in_no_interaction c o ->
  pipe_fit gm bppf erfinv bad k weight prior cfg rate accepted style fuel
    {| l_binner := pipeline_binner bins props inplace; l_object := o |} T y = (None, P1) ->
  (c_log cfg && c_aggregate cfg = false \/ b_diverging (l_object P1) = 0%nat) ->
  forall Y r Y' r' i j, table Y -> table Y' ->
  pipe_predict k weight prior P1 Y = Some r -> pipe_predict k weight prior P1 Y' = Some r' ->
  (i < List.length (fr_index Y))%nat -> (j < List.length (fr_index Y'))%nat -> grows_in c Y i Y' j ->
  (monotonic_increasing p -> nth i r 0 <= nth j r' 0) /\ (monotonic_decreasing p -> nth j r' 0 <= nth i r 0).
Proof. exact pipe_monotone. Qed.
Print Assumptions C106_monotone.

(** A column of the values 10 and 20 with the targets 1 and -1, declared decreasing. *)
Example C106_monotone_case : forall gm bppf erfinv bad,
  (declares falls_a c_a falls /\ is_continuous_set falls = true /\ has_magic_missing_set falls = false /\
   monotonic_decreasing falls /\ choice_fct ChoiceGroupBy true false (fun _ : list label => None) [c_a] [falls] = Some iso /\
   fitted_by (smoother_alg iso_other iso) (m_style [c_a])) /\
  (finite_column (raw one_one) c_a /\ in_no_interaction c_a (fresh [[c_a]])) /\
  grows_in c_a (raw one_one) 0 (raw one_one) 1 /\
  c_log w_cfg && c_aggregate w_cfg = false /\
  exists P1, pipe_fit gm bppf erfinv bad g_kind (Some c_w) None w_cfg ex_rate r_all m_style 1 (pipe falls_a) (raw one_one) [1; -1] = (None, P1) /\
    pipe_predict g_kind (Some c_w) None P1 (raw one_one) = Some [1 / 2; - (1 / 2)].
Proof. exact (fun gm bppf erfinv bad => conj falls_ok (conj falls_other (conj falls_grows (conj eq_refl (falls_runs gm bppf erfinv bad))))). Qed.
