(** Model of statistics providers that convert non-decomposable statistics into decomposable ones. Paths are relative to
    cpp/subprojects/boosting/src/mlrl/boosting unless stated otherwise. Values of type [float64] are real numbers. Sparse ground
    truth matrices are not distinguished from dense ones. *)
From Coq Require Import Reals List Bool Arith.
From Verif Require Import Lib.Arr Model.Losses Model.BoostStatistics.
From Verif Require Model.BoostNonDecomposable.
Import ListNotations.
Open Scope R_scope.

(** Gradients and Hessians of an example: [DenseNonDecomposableStatisticView]. The Hessians are a triangle of size
    n * (n + 1) / 2 (data/view_statistic_non_decomposable_dense.cpp, lines 7-10). *)
Notation ndRow := (list R * list R)%type.

(** The functions of a non-decomposable loss function that are invoked for a single example. *)
Record ndLoss (T : Type) := mkNdLoss {
  updateNonDecomposableStatistics : list R -> list T -> list R -> list R -> option (list R * list R);
  updateDecomposableStatistics : list R -> list T -> list R -> list R -> option (list R * list R) }.
Arguments mkNdLoss {T}. Arguments updateNonDecomposableStatistics {T}. Arguments updateDecomposableStatistics {T}.

(** losses/loss_non_decomposable_logistic.cpp, lines 206-271: the range of outputs that is given to
    [updateDecomposableStatistics] is ignored, the statistics of all outputs are updated. *)
Definition logisticLoss (e : R -> R) : ndLoss bool := mkNdLoss (updateLogisticND e) (updateDecomposableLogisticND e).
(** losses/loss_non_decomposable_squared_hinge.cpp, lines 234-299. *)
Definition squaredHingeLoss : ndLoss bool := mkNdLoss updateSquaredHingeND updateDecomposableSquaredHingeND.
(** losses/loss_non_decomposable_squared_error.cpp, lines 159-271 (classification) and 205-294 (regression problems). *)
Definition squaredErrorLoss : ndLoss bool :=
  mkNdLoss (updateSquaredErrorND binaryConversionFunction) (updateDecomposableSquaredErrorND (fun b => b)).
(** See above (losses/loss_non_decomposable_squared_error.cpp, lines 205-294). *)
Definition squaredErrorRegressionLoss : ndLoss R :=
  mkNdLoss (updateSquaredErrorND scoreConversionFunction) (updateDecomposableSquaredErrorND floatToBool).

(** include/mlrl/boosting/iterator/iterator_diagonal.hpp, lines 65-67 (array access of the iterator that is returned by
    data/view_statistic_non_decomposable_dense.cpp, lines 52-55). *)
Definition diagonalAt (hessians : list R) (index : nat) : option R :=
  aget hessians (BoostNonDecomposable.triangularNumber (index + 1) - 1).

(** statistics/statistics_provider_non_decomposable_dense.cpp, lines 126-137: [row] is newly allocated. *)
Definition convertRow (numCols : nat) (statistics : ndRow) (row : list (R * R)) : option (list (R * R)) :=
  forN numCols 0 (fun j row =>
    let* gradient := aget (fst statistics) j in
    let* hessian := diagonalAt (snd statistics) j in
    aset row j (gradient, hessian)) row.

(** lines 125-138: the rows are processed in an arbitrary order [order], because several threads may be used. *)
Definition toDecomposableStatistics (numCols : nat) (order : list nat) (statistics : list ndRow) (memory : list (list (R * R)))
    : option (list (list (R * R))) :=
  forL order (fun i memory =>
    let* row := aget statistics i in
    let* target := aget memory i in
    let* target := convertRow numCols row target in
    aset memory i target) memory.

(** The object that is used for evaluating rules. *)
Inductive ruleEvaluation := DefaultRuleEvaluation | RegularRuleEvaluation | PruningRuleEvaluation.

(** Non-decomposable and decomposable statistics: scores, gradients and Hessians, and the factory for the evaluation of rules
    (statistics/statistics_common.hpp, lines 528-552). *)
Record ndStatistics := mkNd { ndScores : list (list R); ndRows : list ndRow; ndEvaluation : ruleEvaluation }.
(** See above (statistics/statistics_common.hpp, lines 528-552). *)
Record dStatistics := mkD { dScores : list (list R); dRows : list (list (R * R)); dEvaluation : ruleEvaluation }.

(** statistics/statistics_provider_non_decomposable.hpp, lines 103-107 ([ConvertibleNonDecomposableStatisticsProvider]): the two
    pointers. *)
Record provider := mkProvider { nonDecomposableStatistics : option ndStatistics; decomposableStatistics : option dStatistics }.

(** lines 150-159 and 164-173: [evaluation] is the factory for regular rules or the one for pruned rules. Accessing the
    decomposable statistics if there are none is undefined behavior. *)
Definition switchRuleEvaluation (numCols : nat) (evaluation : ruleEvaluation) (order : list nat) (memory : list (list (R * R)))
    (p : provider) : option provider :=
  match nonDecomposableStatistics p with
  | Some statistics =>
      let* rows := toDecomposableStatistics numCols order (ndRows statistics) memory in
      Some (mkProvider None (Some (mkD (ndScores statistics) rows evaluation)))
  | None =>
      let* statistics := decomposableStatistics p in
      Some (mkProvider None (Some (mkD (dScores statistics) (dRows statistics) evaluation)))
  end.

(** The example whose scores are changed. *)
Definition changedExample (c : scoreChange) : nat := match c with Apply e _ | Revert e _ => e end.

(** statistics/statistics_common.hpp, lines 516-524, and statistics/statistics_non_decomposable_common.hpp, lines 15-21 and
    56-66. *)
Definition changeNonDecomposable {T} (loss : ndLoss T) (truth : list (list T)) (c : scoreChange) (s : ndStatistics)
    : option ndStatistics :=
  let* scores := denseChange c (ndScores s) in
  let* scoreRow := aget scores (changedExample c) in
  let* truthRow := aget truth (changedExample c) in
  let* (gradients, hessians) := aget (ndRows s) (changedExample c) in
  let* row := updateNonDecomposableStatistics loss scoreRow truthRow gradients hessians in
  let* rows := aset (ndRows s) (changedExample c) row in
  Some (mkNd scores rows (ndEvaluation s)).

(** statistics/statistics_common.hpp, lines 516-524, and statistics/statistics_decomposable_common.hpp, lines 14-23 and 49-59. *)
Definition changeDecomposable {T} (loss : ndLoss T) (truth : list (list T)) (c : scoreChange) (s : dStatistics)
    : option dStatistics :=
  let* scores := denseChange c (dScores s) in
  let* scoreRow := aget scores (changedExample c) in
  let* truthRow := aget truth (changedExample c) in
  let* row := aget (dRows s) (changedExample c) in
  let* (gradients, hessians) := updateDecomposableStatistics loss scoreRow truthRow (map fst row) (map snd row) in
  let* rows := aset (dRows s) (changedExample c) (combine gradients hessians) in
  Some (mkD scores rows (dEvaluation s)).

(** What happens during training: statistics/statistics_provider_non_decomposable.hpp, lines 137-145, 150-159 and 164-173. *)
Inductive event :=
| SwitchToRegular (order : list nat) (memory : list (list (R * R)))
| SwitchToPruning (order : list nat) (memory : list (list (R * R)))
| Change (c : scoreChange).
(** See above (statistics/statistics_provider_non_decomposable.hpp, lines 137-145, 150-159 and 164-173). *)
Definition handle {T} (loss : ndLoss T) (truth : list (list T)) (numCols : nat) (e : event) (p : provider) : option provider :=
  match e with
  | SwitchToRegular order memory => switchRuleEvaluation numCols RegularRuleEvaluation order memory p
  | SwitchToPruning order memory => switchRuleEvaluation numCols PruningRuleEvaluation order memory p
  | Change c =>
      match nonDecomposableStatistics p with
      | Some statistics =>
          let* statistics := changeNonDecomposable loss truth c statistics in
          Some (mkProvider (Some statistics) (decomposableStatistics p))
      | None =>
          let* statistics := decomposableStatistics p in
          let* statistics := changeDecomposable loss truth c statistics in
          Some (mkProvider None (Some statistics))
      end
  end.

(** statistics/statistics_provider_non_decomposable_dense.cpp, lines 146-175 (and 117-122 of
    statistics/statistics_provider_non_decomposable.hpp): the scores are zero, the statistics are calculated for each example, in
    an arbitrary order, and written to uninitialized memory. *)
Definition createProvider {T} (loss : ndLoss T) (truth : list (list T)) (numCols : nat) (order : list nat) (memory : list ndRow)
    : option provider :=
  let scores := repeat (repeat 0 numCols) (length truth) in
  let* rows := forL order (fun i rows =>
    let* scoreRow := aget scores i in
    let* truthRow := aget truth i in
    let* (gradients, hessians) := aget rows i in
    let* row := updateNonDecomposableStatistics loss scoreRow truthRow gradients hessians in
    aset rows i row) memory in
  Some (mkProvider (Some (mkNd scores rows DefaultRuleEvaluation)) None).
