(** Model of the statistics used by boosting algorithms: vectors that store sums of gradients and Hessians, the classes that
    aggregate them while searching for rules, and matrices that store predicted scores. Paths are relative to
    cpp/subprojects/boosting/src/mlrl/boosting unless stated otherwise. Values of type [float64] are real numbers; there is no
    rounding and no overflow. A weight is [None] if the overloads without a weight are used (EqualWeightVector). *)
From Coq Require Import Reals List Bool Arith.
From Verif Require Import Lib.Arr Model.Containers Model.Losses.
Import ListNotations.
Open Scope R_scope.

(** ** Views *)

(** cpp/subprojects/common/include/mlrl/common/util/view_functions.hpp, lines 84-89, 103-108, 164-169 and 183-188. [f] stands
    for the assignment operator; [aStart] and [bStart] are the positions of the iterators. *)
Definition combineViews {A B} (f : A -> B -> A) (a : list A) (b : list B) (numElements : nat) : option (list A) :=
  forN numElements 0 (fun i a =>
    let* x := aget a i in
    let* y := aget b i in
    aset a i (f x y)) a.

(** view_functions.hpp, lines 123-129 and 147-153. *)
Definition combineViewsFrom {A B} (f : A -> B -> A) (a : list A) (aStart : nat) (b : list B) (bStart : nat)
    (indices : list nat) (numElements : nat) : option (list A) :=
  forN numElements 0 (fun i a =>
    let* index := aget indices i in
    let* x := aget a (aStart + i) in
    let* y := aget b (bStart + index) in
    aset a (aStart + i) (f x y)) a.

(** view_functions.hpp, lines 202-207. *)
Definition setViewToDifference {A} (minus : A -> A -> A) (a b c : list A) (numElements : nat) : option (list A) :=
  forN numElements 0 (fun i a =>
    let* x := aget b i in
    let* y := aget c i in
    aset a i (minus x y)) a.

(** view_functions.hpp, lines 225-232. *)
Definition setViewToDifferenceFrom {A} (minus : A -> A -> A) (a : list A) (aStart : nat) (b : list A) (bStart : nat)
    (c : list A) (cStart : nat) (indices : list nat) (numElements : nat) : option (list A) :=
  forN numElements 0 (fun i a =>
    let* index := aget indices i in
    let* x := aget b (bStart + index) in
    let* y := aget c (cStart + i) in
    aset a (aStart + i) (minus x y)) a.

(** cpp/subprojects/common/include/mlrl/common/data/tuple.hpp, lines 78-82, 143-146 and 168-171. *)
Definition plus2 (x y : R * R) : R * R := (fst x + fst y, snd x + snd y).
(** See above (cpp/subprojects/common/include/mlrl/common/data/tuple.hpp, lines 78-82, 143-146 and 168-171). *)
Definition minus2 (x y : R * R) : R * R := (fst x - fst y, snd x - snd y).
(** See above (cpp/subprojects/common/include/mlrl/common/data/tuple.hpp, lines 78-82, 143-146 and 168-171). *)
Definition scale2 (x : R * R) (w : R) : R * R := (fst x * w, snd x * w).

(** A gradient, a Hessian and a weight: cpp/subprojects/common/include/mlrl/common/data/triple.hpp, lines 16-185. *)
Definition triple : Type := (R * R) * R.
(** See above (cpp/subprojects/common/include/mlrl/common/data/triple.hpp, lines 16-185). *)
Definition plus3 (x y : triple) : triple := (plus2 (fst x) (fst y), snd x + snd y).
(** See above (cpp/subprojects/common/include/mlrl/common/data/triple.hpp, lines 16-185). *)
Definition minus3 (x y : triple) : triple := (minus2 (fst x) (fst y), snd x - snd y).

(** An element that is multiplied by a weight, if any. *)
Definition weighted1 (weight : option R) (y : R) : R := match weight with None => y | Some w => y * w end.
Definition weighted2 (weight : option R) (y : R * R) : R * R := match weight with None => y | Some w => scale2 y w end.

(** Output indices: [CompleteIndexVector] and [PartialIndexVector]. *)
Inductive outputs := AllOutputs (numOutputs : nat) | SomeOutputs (indices : list nat).
Definition numOutputs (o : outputs) : nat := match o with AllOutputs n => n | SomeOutputs l => length l end.

(** ** Statistic vectors *)

(** The functions of a class that may be used as the template parameter [StatisticVector]. [V]: the vectors, [Row]: the
    statistics of a single example. The outcome [None] is undefined behaviour. *)
Record vectorClass (V Row : Type) := {
  vectorNew : nat -> V;
  vectorClear : V -> V;
  vectorAdd : Row -> option R -> V -> option V;
  vectorRemove : Row -> option R -> V -> option V;
  vectorAddToSubset : Row -> outputs -> option R -> V -> option V;
  vectorAddVector : V -> V -> option V;
  vectorDifference : V -> outputs -> V -> V -> option V
}.
Arguments vectorNew {V Row}. Arguments vectorClear {V Row}. Arguments vectorAdd {V Row}. Arguments vectorRemove {V Row}.
Arguments vectorAddToSubset {V Row}. Arguments vectorAddVector {V Row}. Arguments vectorDifference {V Row}.

(** data/vector_statistic_decomposable_dense.cpp, lines 5-7 (with [init] being true), 14-16, 18-25, 27-34, 36-56 and 58-70.
    The function [clear] is implemented in cpp/subprojects/common/include/mlrl/common/data/view.hpp. *)
Definition denseNew (numElements : nat) : list (R * R) := repeat (0, 0) numElements.
(** common/include/mlrl/common/data/view.hpp, lines 386-388, and view_vector.hpp, lines 108-110. *)
Definition denseClear (v : list (R * R)) : list (R * R) := map (fun _ => (0, 0)) v.
(** data/vector_statistic_decomposable_dense.cpp, lines 18-25. *)
Definition denseAdd (row : list (R * R)) (weight : option R) (v : list (R * R)) : option (list (R * R)) :=
  combineViews (fun x y => plus2 x (weighted2 weight y)) v row (length v).
(** data/vector_statistic_decomposable_dense.cpp, lines 27-34. *)
Definition denseRemove (row : list (R * R)) (weight : option R) (v : list (R * R)) : option (list (R * R)) :=
  combineViews (fun x y => minus2 x (weighted2 weight y)) v row (length v).
(** data/vector_statistic_decomposable_dense.cpp, lines 36-56. *)
Definition denseAddToSubset (row : list (R * R)) (o : outputs) (weight : option R) (v : list (R * R))
    : option (list (R * R)) :=
  match o with
  | AllOutputs _ => combineViews (fun x y => plus2 x (weighted2 weight y)) v row (length v)
  | SomeOutputs indices => combineViewsFrom (fun x y => plus2 x (weighted2 weight y)) v 0 row 0 indices (length v)
  end.
(** data/vector_statistic_decomposable_dense.cpp, lines 14-16. *)
Definition denseAddVector (vector v : list (R * R)) : option (list (R * R)) := combineViews plus2 v vector (length v).
(** data/vector_statistic_decomposable_dense.cpp, lines 58-70. *)
Definition denseDifference (first : list (R * R)) (firstIndices : outputs) (second v : list (R * R))
    : option (list (R * R)) :=
  match firstIndices with
  | AllOutputs _ => setViewToDifference minus2 v first second (length v)
  | SomeOutputs indices => setViewToDifferenceFrom minus2 v 0 first 0 second 0 indices (length v)
  end.
(** data/vector_statistic_decomposable_dense.cpp, lines 5-70. *)
Definition denseClass : vectorClass (list (R * R)) (list (R * R)) :=
  {| vectorNew := denseNew; vectorClear := denseClear; vectorAdd := denseAdd; vectorRemove := denseRemove;
     vectorAddToSubset := denseAddToSubset; vectorAddVector := denseAddVector; vectorDifference := denseDifference |}.

(** data/vector_statistic_decomposable_sparse.cpp, lines 121-129: the array of triples and [sumOfWeights_]. *)
Definition sparseVector : Type := list triple * R.

(** data/vector_statistic_decomposable_sparse.cpp, lines 121-124 (with [init] being true) and 247-250. *)
Definition sparseNew (numElements : nat) : sparseVector := (repeat (0, 0, 0) numElements, 0).
(** See above (data/vector_statistic_decomposable_sparse.cpp, lines 121-124). *)
Definition sparseClear (v : sparseVector) : sparseVector := (map (fun _ => (0, 0, 0)) (fst v), 0).

(** What is added to or subtracted from a triple, lines 14-16, 30-32, 45-47, 60-62, 192-194 and 223-225. *)
Definition weighted3 (weight : option R) (y : R * R) : triple :=
  match weight with None => (y, 1) | Some w => (scale2 y w, w) end.

(** lines 5-18, 20-34, 36-49 and 51-64. *)
Definition combineEntries (f : triple -> R * R -> triple) (triples : list triple) (entries : list (nat * (R * R)))
    : option (list triple) :=
  forL entries (fun entry triples =>
    let* x := aget triples (fst entry) in
    aset triples (fst entry) (f x (snd entry))) triples.

(** Whether the overloads with a weight do anything (lines 151, 165, 201 and 210). *)
Definition skipped (weight : option R) : bool := match weight with None => false | Some w => isEqualToZero w end.
(** See above (data/vector_statistic_decomposable_sparse.cpp, lines 151, 165, 201 and 210). *)
Definition weight1 (weight : option R) : R := match weight with None => 1 | Some w => w end.

(** lines 145-156, 158-170 and 172-176 (and 199-206). *)
Definition sparseAdd (row : sset (R * R)) (weight : option R) (v : sparseVector) : option sparseVector :=
  if skipped weight then Some v
  else
    let* triples := combineEntries (fun x y => plus3 x (weighted3 weight y)) (fst v) (ss_values row) in
    Some (triples, snd v + weight1 weight).
(** See above (data/vector_statistic_decomposable_sparse.cpp, lines 145-156, 158-170 and 172-176, 199-206). *)
Definition sparseRemove (row : sset (R * R)) (weight : option R) (v : sparseVector) : option sparseVector :=
  if skipped weight then Some v
  else
    let* triples := combineEntries (fun x y => minus3 x (weighted3 weight y)) (fst v) (ss_values row) in
    Some (triples, snd v - weight1 weight).

(** lines 178-197 and 208-229. *)
Definition sparseAddToSubset (row : sset (R * R)) (o : outputs) (weight : option R) (v : sparseVector)
    : option sparseVector :=
  match o with
  | AllOutputs _ => sparseAdd row weight v
  | SomeOutputs indices =>
      if skipped weight then Some v
      else
        let* triples := forN (length indices) 0 (fun i triples =>
          let* index := aget indices i in
          let* entry := ss_get row index in
          match entry with
          | None => Some triples
          | Some (_, tuple) =>
              let* x := aget triples i in
              aset triples i (plus3 x (weighted3 weight tuple))
          end) (fst v) in
        Some (triples, snd v + weight1 weight)
  end.

(** lines 140-143. *)
Definition sparseAddVector (vector v : sparseVector) : option sparseVector :=
  let* triples := combineViews plus3 (fst v) (fst vector) (length (fst v)) in
  Some (triples, snd v + snd vector).

(** lines 231-245. *)
Definition sparseDifference (first : sparseVector) (firstIndices : outputs) (second v : sparseVector)
    : option sparseVector :=
  let* triples :=
    match firstIndices with
    | AllOutputs _ => setViewToDifference minus3 (fst v) (fst first) (fst second) (length (fst v))
    | SomeOutputs indices =>
        setViewToDifferenceFrom minus3 (fst v) 0 (fst first) 0 (fst second) 0 indices (length (fst v))
    end in
  Some (triples, snd first - snd second).

(** lines 70-84: the elements that are provided by the iterator. *)
Definition sparseElement (v : sparseVector) (i : nat) : option (R * R) :=
  let* t := aget (fst v) i in
  let '(gradient, hessian, weight) := t in
  Some (gradient, hessian + (snd v - weight)).

(** data/vector_statistic_decomposable_sparse.cpp, lines 121-250. *)
Definition sparseClass : vectorClass sparseVector (sset (R * R)) :=
  {| vectorNew := sparseNew; vectorClear := sparseClear; vectorAdd := sparseAdd; vectorRemove := sparseRemove;
     vectorAddToSubset := sparseAddToSubset; vectorAddVector := sparseAddVector; vectorDifference := sparseDifference |}.

(** include/mlrl/boosting/util/math.hpp, lines 16-18. *)
Definition triangularNumber (n : nat) : nat := (n * (n + 1) / 2)%nat.

(** data/vector_statistic_non_decomposable_dense.cpp, lines 7-11: the gradients and the lower triangle of the Hessians. *)
Definition nonDecomposableVector : Type := list R * list R.

(** lines 7-11. *)
Definition ndNew (numGradients : nat) : nonDecomposableVector :=
  (repeat 0 numGradients, repeat 0 (triangularNumber numGradients)).
(** See above (data/vector_statistic_non_decomposable_dense.cpp, lines 7-11). *)
Definition ndClear (v : nonDecomposableVector) : nonDecomposableVector := (map (fun _ => 0) (fst v), map (fun _ => 0) (snd v)).

(** lines 79-88 and 90-99 (and 101-105 and 120-124). *)
Definition ndCombine (f : R -> R -> R) (row v : nonDecomposableVector) : option nonDecomposableVector :=
  let* gradients := combineViews f (fst v) (fst row) (length (fst v)) in
  let* hessians := combineViews f (snd v) (snd row) (length (snd v)) in
  Some (gradients, hessians).
(** See above (data/vector_statistic_non_decomposable_dense.cpp, lines 79-88 and 90-99, 101-105 and 120-124). *)
Definition ndAdd (row : nonDecomposableVector) (weight : option R) (v : nonDecomposableVector) :=
  ndCombine (fun x y => x + weighted1 weight y) row v.
(** See above (data/vector_statistic_non_decomposable_dense.cpp, lines 79-88 and 90-99, 101-105 and 120-124). *)
Definition ndRemove (row : nonDecomposableVector) (weight : option R) (v : nonDecomposableVector) :=
  ndCombine (fun x y => x - weighted1 weight y) row v.

(** lines 107-118 and 126-138. *)
Definition ndAddToSubset (row : nonDecomposableVector) (o : outputs) (weight : option R) (v : nonDecomposableVector)
    : option nonDecomposableVector :=
  match o with
  | AllOutputs _ => ndAdd row weight v
  | SomeOutputs indices =>
      let f x y := x + weighted1 weight y in
      let* gradients := combineViewsFrom f (fst v) 0 (fst row) 0 indices (length (fst v)) in
      let* hessians := forN (length (fst v)) 0 (fun i hessians =>
        let* index := aget indices i in
        combineViewsFrom f hessians (triangularNumber i) (snd row) (triangularNumber index) indices (i + 1)) (snd v) in
      Some (gradients, hessians)
  end.

(** lines 74-77. *)
Definition ndAddVector (vector v : nonDecomposableVector) : option nonDecomposableVector := ndCombine Rplus vector v.

(** lines 140-147 and 149-165. *)
Definition ndDifference (first : nonDecomposableVector) (firstIndices : outputs) (second v : nonDecomposableVector)
    : option nonDecomposableVector :=
  match firstIndices with
  | AllOutputs _ =>
      let* gradients := setViewToDifference Rminus (fst v) (fst first) (fst second) (length (fst v)) in
      let* hessians := setViewToDifference Rminus (snd v) (snd first) (snd second) (length (snd v)) in
      Some (gradients, hessians)
  | SomeOutputs indices =>
      let* gradients := setViewToDifferenceFrom Rminus (fst v) 0 (fst first) 0 (fst second) 0 indices (length (fst v)) in
      let* hessians := forN (length (fst v)) 0 (fun i hessians =>
        let offset := triangularNumber i in
        let* index := aget indices i in
        setViewToDifferenceFrom Rminus hessians offset (snd first) (triangularNumber index) (snd second) offset indices
          (i + 1)) (snd v) in
      Some (gradients, hessians)
  end.

(** data/vector_statistic_non_decomposable_dense.cpp, lines 7-165. *)
Definition ndClass : vectorClass nonDecomposableVector nonDecomposableVector :=
  {| vectorNew := ndNew; vectorClear := ndClear; vectorAdd := ndAdd; vectorRemove := ndRemove;
     vectorAddToSubset := ndAddToSubset; vectorAddVector := ndAddVector; vectorDifference := ndDifference |}.

(** ** Aggregation of statistics *)

(** The weights of examples: [EqualWeightVector] or a vector that stores individual weights. *)
Inductive weightVector := EqualWeights (numElements : nat) | IndividualWeights (weights : list R).
Definition numWeights (w : weightVector) : nat := match w with EqualWeights n => n | IndividualWeights l => length l end.

(** The weight that is passed to a function of a statistic vector; the overloads that are given an [EqualWeightVector] do not
    access any weight. statistics/statistics_common.hpp, lines 21-35 and 277-301. *)
Definition weightAt (w : weightVector) (i : nat) : option (option R) :=
  match w with EqualWeights _ => Some None | IndividualWeights l => let* x := aget l i in Some (Some x) end.

(** statistics/statistics_common.hpp, lines 277-288 and 290-301. *)
Definition addStatistic {V Row} (C : vectorClass V Row) (rows : list Row) (weights : weightVector) (v : V) (i : nat)
    : option V :=
  let* weight := weightAt weights i in
  let* row := aget rows i in
  vectorAdd C row weight v.
(** See above (statistics/statistics_common.hpp, lines 277-288 and 290-301). *)
Definition removeStatistic {V Row} (C : vectorClass V Row) (rows : list Row) (weights : weightVector) (v : V) (i : nat)
    : option V :=
  let* weight := weightAt weights i in
  let* row := aget rows i in
  vectorRemove C row weight v.

(** lines 390-400: the constructor of [WeightedStatistics] calculates the total sums. *)
Definition newWeighted {V Row} (C : vectorClass V Row) (rows : list Row) (weights : weightVector) (numCols : nat) : option V :=
  forN (numWeights weights) 0 (fun i v => addStatistic C rows weights v i) (vectorNew C numCols).

(** lines 421-437. *)
Inductive totalOp := ResetCovered | AddCovered (i : nat) | RemoveCovered (i : nat).
(** See above (statistics/statistics_common.hpp, lines 421-437). *)
Definition totalStep {V Row} (C : vectorClass V Row) (rows : list Row) (weights : weightVector) (op : totalOp) (total : V)
    : option V :=
  match op with
  | ResetCovered => Some (vectorClear C total)
  | AddCovered i => addStatistic C rows weights total i
  | RemoveCovered i => removeStatistic C rows weights total i
  end.

(** lines 149-202: [sumVector_], [accumulatedSumVectorPtr_], the vector that [totalSumVector_] points to, and [tmpVector_]. The
    latter is not initialised; it is overwritten before it is read. *)
Record subset (V : Type) := mkSubset { subsetSum : V; subsetAccumulated : option V; subsetTotal : V; subsetTmp : V }.
Arguments mkSubset {V}. Arguments subsetSum {V}. Arguments subsetAccumulated {V}. Arguments subsetTotal {V}.
Arguments subsetTmp {V}.

(** lines 69-73, 171-177 and 351-374. [excluded]: the excluded indices in an arbitrary order. [total] is the vector that is owned
    by the weighted statistics; it is copied, if there are any excluded indices. It must not be modified while the subset is used,
    unless it has been copied. *)
Definition newSubset {V Row} (C : vectorClass V Row) (rows : list Row) (weights : weightVector) (total : V)
    (excluded : list nat) (o : outputs) : option (subset V) :=
  let* total := forL excluded (fun i total => removeStatistic C rows weights total i) total in
  Some (mkSubset (vectorNew C (numOutputs o)) None total (vectorNew C (numOutputs o))).

(** lines 114-116 and 189-202. *)
Inductive subsetOp := AddToSubset (i : nat) | ResetSubset.
(** See above (statistics/statistics_common.hpp, lines 114-116 and 189-202). *)
Definition subsetStep {V Row} (C : vectorClass V Row) (rows : list Row) (weights : weightVector) (o : outputs)
    (op : subsetOp) (s : subset V) : option (subset V) :=
  match op with
  | AddToSubset i =>
      let* weight := weightAt weights i in
      let* row := aget rows i in
      let* sum := vectorAddToSubset C row o weight (subsetSum s) in
      Some (mkSubset sum (subsetAccumulated s) (subsetTotal s) (subsetTmp s))
  | ResetSubset =>
      let* accumulated :=
        match subsetAccumulated s with
        | None => Some (subsetSum s)
        | Some accumulated => vectorAddVector C (subsetSum s) accumulated
        end in
      Some (mkSubset (vectorClear C (subsetSum s)) (Some accumulated) (subsetTotal s) (subsetTmp s))
  end.

(** lines 121-123 and 207-225: the vector that is passed to the rule evaluation. A null pointer is dereferenced if the function is
    invoked on the accumulated statistics of a subset that has never been reset. *)
Inductive scoring := Covered | CoveredAccumulated | Uncovered | UncoveredAccumulated.
(** See above (statistics/statistics_common.hpp, lines 121-123 and 207-225). *)
Definition scoredVector {V Row} (C : vectorClass V Row) (o : outputs) (s : subset V) (k : scoring) : option V :=
  match k with
  | Covered => Some (subsetSum s)
  | CoveredAccumulated => subsetAccumulated s
  | Uncovered => vectorDifference C (subsetTotal s) o (subsetSum s) (subsetTmp s)
  | UncoveredAccumulated =>
      let* accumulated := subsetAccumulated s in
      vectorDifference C (subsetTotal s) o accumulated (subsetTmp s)
  end.

(** ** Predicted scores *)

(** The head of a rule: [CompletePrediction] or [PartialPrediction]. *)
Inductive prediction := CompletePrediction (values : list R) | PartialPrediction (indices : list nat) (values : list R).

(** data/matrix_c_contiguous_numeric.cpp, lines 9-20 and 22-34 ([f] is the addition), lines 36-47 and 49-61 ([f] is the
    subtraction): a row of the matrix. *)
Definition denseScoreStep (f : R -> R -> R) (p : prediction) (row : list R) : option (list R) :=
  match p with
  | CompletePrediction values =>
      forN (length row) 0 (fun i row =>
        let* x := aget row i in
        let* y := aget values i in
        aset row i (f x y)) row
  | PartialPrediction indices values =>
      forN (length indices) 0 (fun i row =>
        let* index := aget indices i in
        let* x := aget row index in
        let* y := aget values i in
        aset row index (f x y)) row
  end.
(** See above (data/matrix_c_contiguous_numeric.cpp, lines 9-20 and 22-34; data/matrix_c_contiguous_numeric.cpp, lines 36-47 and
    49-61). *)
Definition denseAddToRow (p : prediction) (row : list R) : option (list R) := denseScoreStep Rplus p row.
(** See above (data/matrix_c_contiguous_numeric.cpp, lines 9-20 and 22-34; data/matrix_c_contiguous_numeric.cpp, lines 36-47 and
    49-61). *)
Definition denseRemoveFromRow (p : prediction) (row : list R) : option (list R) := denseScoreStep Rminus p row.

(** data/matrix_sparse_set_numeric.cpp, lines 5-14 and 16-25: [numCols] indices are returned by the iterator of a
    CompleteIndexVector. *)
Definition sparseScoreLoop (f : R -> R -> R) (values : list R) (indices : list nat) (row : sset R) : option (sset R) :=
  forN (length indices) 0 (fun i row =>
    let* index := aget indices i in
    let* row := ss_emplace row index 0 in
    let* y := aget values i in
    ss_update row index (fun x => f x y)) row.

(** lines 31-48 and 50-67. *)
Definition sparseScoreStep (f : R -> R -> R) (p : prediction) (row : sset R) : option (sset R) :=
  match p with
  | CompletePrediction values => sparseScoreLoop f values (seq 0 (length (ss_indices row))) row
  | PartialPrediction indices values => sparseScoreLoop f values indices row
  end.
(** See above (data/matrix_sparse_set_numeric.cpp, lines 31-48 and 50-67). *)
Definition sparseAddToRow (p : prediction) (row : sset R) : option (sset R) := sparseScoreStep Rplus p row.
(** See above (data/matrix_sparse_set_numeric.cpp, lines 31-48 and 50-67). *)
Definition sparseRemoveFromRow (p : prediction) (row : sset R) : option (sset R) := sparseScoreStep Rminus p row.

(** The score that is stored for an output; missing elements are zero. *)
Definition sparseScore (row : sset R) (l : nat) : option R :=
  let* entry := ss_get row l in
  Some (match entry with None => 0 | Some (_, value) => value end).

(** statistics/statistics_common.hpp, lines 459-471 and 516-524, without updating statistics: the prediction of a rule is added to
    the scores of an example or it is subtracted. *)
Inductive scoreChange := Apply (example : nat) (p : prediction) | Revert (example : nat) (p : prediction).
(** See above (statistics/statistics_common.hpp, lines 459-471 and 516-524). *)
Definition changeRow {Row} (example : nat) (f : Row -> option Row) (rows : list Row) : option (list Row) :=
  let* row := aget rows example in
  let* row := f row in
  aset rows example row.
(** See above (statistics/statistics_common.hpp, lines 459-471 and 516-524). *)
Definition denseChange (c : scoreChange) (rows : list (list R)) : option (list (list R)) :=
  match c with
  | Apply example p => changeRow example (denseAddToRow p) rows
  | Revert example p => changeRow example (denseRemoveFromRow p) rows
  end.
(** See above (statistics/statistics_common.hpp, lines 459-471 and 516-524). *)
Definition sparseChange (c : scoreChange) (rows : list (sset R)) : option (list (sset R)) :=
  match c with
  | Apply example p => changeRow example (sparseAddToRow p) rows
  | Revert example p => changeRow example (sparseRemoveFromRow p) rows
  end.
