(** Model of the statistics used by separate-and-conquer algorithms (subproject seco).
    Paths are relative to cpp/subprojects/seco unless stated otherwise. Weights and sums of weights are integers; they
    are only added and subtracted, hence rational weights are covered by scaling them. *)
From Coq Require Import ZArith NArith Arith List Bool.
From Verif Require Import Lib.Arr.
Import ListNotations.
Open Scope nat_scope.

(** ** Iterating sparse binary vectors
    (common/include/mlrl/common/iterator/iterator_forward_sparse_binary.hpp) *)

(** lines 21-27: [index_] and the indices from [indexIterator_] to [indicesEnd_]. The member [iteratorIndex_] caches the
    first of these indices. *)
Record fwd : Type := mkFwd { fIndex : nat; fRest : list nat }.

(** lines 140-146, with the default argument [startIndex = 0]. *)
Definition fwdNew (indices : list nat) : fwd := mkFwd 0 indices.

(** lines 73-75 ([operator*]). *)
Definition fwdDeref (it : fwd) : bool := match fRest it with [] => false | h :: _ => h =? fIndex it end.

(** lines 82-94 and 101-113 ([operator++]). *)
Definition fwdNext (it : fwd) : fwd :=
  let index := fIndex it + 1 in
  mkFwd index (match fRest it with [] => [] | h :: rest => if h <? index then rest else h :: rest end).

(** [std::advance(it, index - previousIndex)]: the difference of type [uint32] is converted into the [int] given by
    line 45. The behaviour is undefined if it is negative, as the iterator is not bidirectional. *)
Definition fwdAdvance (it : fwd) (index previousIndex : nat) : option fwd :=
  if index <? previousIndex then None else Some (Nat.iter (index - previousIndex) fwdNext it).

(** ** Confusion matrices (include/mlrl/seco/data/confusion_matrix.hpp, lines 15-45) *)
Record confusion : Type := mkConfusion { cmIn : Z; cmIp : Z; cmRn : Z; cmRp : Z }.

(** See above (include/mlrl/seco/data/confusion_matrix.hpp, lines 15-45). *)
Definition cmZero : confusion := mkConfusion 0 0 0 0.

(** lines 192-198 ([getElement]), followed by [element += weight]. *)
Definition cmAddTo (m : confusion) (trueLabel majorityLabel : bool) (weight : Z) : confusion :=
  if trueLabel then
    if majorityLabel then mkConfusion (cmIn m) (cmIp m) (cmRn m + weight) (cmRp m)
    else mkConfusion (cmIn m) (cmIp m) (cmRn m) (cmRp m + weight)
  else
    if majorityLabel then mkConfusion (cmIn m + weight) (cmIp m) (cmRn m) (cmRp m)
    else mkConfusion (cmIn m) (cmIp m + weight) (cmRn m) (cmRp m).

(** lines 83-94 ([operator+=]). *)
Definition cmPlus (a b : confusion) : confusion :=
  mkConfusion (cmIn a + cmIn b) (cmIp a + cmIp b) (cmRn a + cmRn b) (cmRp a + cmRp b).
(** lines 137-143 ([operator-]). *)
Definition cmMinus (a b : confusion) : confusion :=
  mkConfusion (cmIn a - cmIn b) (cmIp a - cmIp b) (cmRn a - cmRn b) (cmRp a - cmRp b).

(** ** Label matrices
    A dense matrix is a single array that contains the rows one after another
    (common/include/mlrl/common/data/view_matrix_c_contiguous.hpp,
    lines 17-108); the values 0 and 1 are given as [bool]. Of a sparse
    matrix (common/include/mlrl/common/data/view_matrix_csr_binary.hpp,
    lines 15-120), the indices of each row are given. *)
Inductive labelValues := DenseLabels (values : list bool) | CsrLabels (rows : list (list nat)).
(** See above (common/include/mlrl/common/data/view_matrix_c_contiguous.hpp, lines 17-108;
    common/include/mlrl/common/data/view_matrix_csr_binary.hpp, lines 15-120). *)
Record labelMatrix : Type := mkLabels { lmRows : nat; lmCols : nat; lmValues : labelValues }.

(** The iterators passed to [addInternally]: a pointer into the array or a [BinarySparseForwardIterator]
    (src/mlrl/seco/data/vector_confusion_matrix_dense.cpp, lines 50-51 and 58-59). *)
Inductive labelIter := DenseIter (values : list bool) (pos : nat) | SparseIter (it : fwd).

(** See above (src/mlrl/seco/data/vector_confusion_matrix_dense.cpp, lines 50-51 and 58-59). *)
Definition liNew (lm : labelMatrix) (row : nat) : option labelIter :=
  match lmValues lm with
  | DenseLabels values => Some (DenseIter values (row * lmCols lm))
  | CsrLabels rows => let* indices := aget rows row in Some (SparseIter (fwdNew indices))
  end.
(** See above (src/mlrl/seco/data/vector_confusion_matrix_dense.cpp, lines 50-51 and 58-59). *)
Definition liDeref (it : labelIter) : option bool :=
  match it with DenseIter values pos => aget values pos | SparseIter f => Some (fwdDeref f) end.
(** See above (src/mlrl/seco/data/vector_confusion_matrix_dense.cpp, lines 50-51 and 58-59). *)
Definition liNext (it : labelIter) : labelIter :=
  match it with DenseIter values pos => DenseIter values (pos + 1) | SparseIter f => SparseIter (fwdNext f) end.

(** ** Creation of statistics
    (src/mlrl/seco/statistics/statistics_provider_decomposable_dense.cpp) *)

(** lines 62-68 and 104-110: [numRelevant > numExamples / 2.0]. The state consists of [majorityIterator], [n] and
    [sumOfUncoveredWeights]. *)
Definition considerLabel (numExamples i numRelevant : nat) (st : list nat * nat * Z) : option (list nat * nat * Z) :=
  let '(majority, n, sum) := st in
  if numExamples <? 2 * numRelevant then
    let* majority := aset majority n i in
    Some (majority, n + 1, (sum + Z.of_nat (numExamples - numRelevant))%Z)
  else Some (majority, n, (sum + Z.of_nat numRelevant)%Z).

(** lines 40-71, dense label matrices; [junk]: the memory allocated for the vector. Returns the majority labels and the
    sum of uncovered weights that is passed to the coverage matrix. *)
Definition createStatisticsDense (junk : list nat) (numExamples numLabels : nat) (values : list bool) :
    option (list nat * Z) :=
  let* (majority, n, sum) := forN numLabels 0 (fun i st =>
    let* numRelevant := forN numExamples 0 (fun j numRelevant =>
      let* trueLabel := aget values (j * numLabels + i) in
      Some (numRelevant + Nat.b2n trueLabel)) 0 in
    considerLabel numExamples i numRelevant st) (junk, 0, 0%Z) in
  Some (firstn n majority, sum).

(** lines 78-114, sparse label matrices: the vector is used for counting relevant labels as well. *)
Definition createStatisticsSparse (numExamples numLabels : nat) (rows : list (list nat)) : option (list nat * Z) :=
  let* counts := forN numExamples 0 (fun i counts =>
    let* indices := aget rows i in
    forL indices (fun index counts => let* c := aget counts index in aset counts index (c + 1)) counts)
    (repeat 0 numLabels) in
  let* (majority, n, sum) := forN numLabels 0 (fun i st =>
    let '(majority, n, sum) := st in
    let* numRelevant := aget majority i in
    considerLabel numExamples i numRelevant st) (counts, 0, 0%Z) in
  Some (firstn n majority, sum).

(** See above (src/mlrl/seco/statistics/statistics_provider_decomposable_dense.cpp, lines 78-114). *)
Definition createStatistics (junk : list nat) (lm : labelMatrix) : option (list nat * Z) :=
  match lmValues lm with
  | DenseLabels values => createStatisticsDense junk (lmRows lm) (lmCols lm) values
  | CsrLabels rows => createStatisticsSparse (lmRows lm) (lmCols lm) rows
  end.

(** src/mlrl/seco/rule_evaluation/rule_evaluation_decomposable_majority.hpp, lines 37-57: the scores of the default rule
    for the given outputs. *)
Definition majorityScores (majority indices : list nat) : option (list bool) :=
  let* (_, _, scores) := forL indices (fun index st =>
    let '(it, previousIndex, scores) := st in
    let* it := fwdAdvance it index previousIndex in
    Some (it, index, scores ++ [fwdDeref it])) (fwdNew majority, 0, []) in
  Some scores.

(** ** Coverage matrices (src/mlrl/seco/data/matrix_coverage_dense.cpp)
    The rows are stored one after another. *)
Record coverage : Type := mkCoverage { cvCounts : list N; cvSum : Z }.

(** lines 7-10: the array is initialised with zeros. *)
Definition newCoverage (numRows numCols : nat) (sum : Z) : coverage := mkCoverage (repeat 0%N (numRows * numCols)) sum.

(** lines 30-38 and 60-68. *)
Definition increaseAt (p : nat) (c : coverage) : option coverage :=
  let* n := aget (cvCounts c) p in
  let sum := if (n =? 0)%N then (cvSum c - 1)%Z else cvSum c in
  let* counts := aset (cvCounts c) p ((n + 1) mod 2 ^ 32)%N in
  Some (mkCoverage counts sum).

(** lines 89-97 and 119-127. *)
Definition decreaseAt (p : nat) (c : coverage) : option coverage :=
  let* n := aget (cvCounts c) p in
  let n := ((n + 2 ^ 32 - 1) mod 2 ^ 32)%N in
  let sum := if (n =? 0)%N then (cvSum c + 1)%Z else cvSum c in
  let* counts := aset (cvCounts c) p n in
  Some (mkCoverage counts sum).

(** The predictions of a rule: one for each label, or one for each of some labels. *)
Inductive head := CompleteHead (scores : list bool) | PartialHead (indices : list nat) (scores : list bool).

(** lines 16-42 and 75-101 (for complete heads), 44-73 and 103-132 (for partial heads); [change] is [increaseAt] or
    [decreaseAt]. *)
Definition changeCoverage (change : nat -> coverage -> option coverage) (numCols row : nat) (majority : list nat)
    (h : head) (c : coverage) : option coverage :=
  match h with
  | CompleteHead scores =>
      let* (_, c) := forN numCols 0 (fun i st =>
        let '(it, c) := st in
        let* predicted := aget scores i in
        let* c := if negb (eqb predicted (fwdDeref it)) then change (row * numCols + i) c else Some c in
        Some (fwdNext it, c)) (fwdNew majority, c) in
      Some c
  | PartialHead indices scores =>
      let* (_, _, c) := forN (length indices) 0 (fun i st =>
        let '(it, previousIndex, c) := st in
        let* index := aget indices i in
        let* predicted := aget scores i in
        let* it := fwdAdvance it index previousIndex in
        let* c := if negb (eqb predicted (fwdDeref it)) then change (row * numCols + index) c else Some c in
        Some (it, index, c)) (fwdNew majority, 0, c) in
      Some c
  end.

(** src/mlrl/seco/statistics/statistics_common.hpp, lines 536-544 and 606-610 ([applyPrediction]). *)
Definition applyPrediction := changeCoverage increaseAt.
(** lines 546-554 and 612-616 ([revertPrediction]). *)
Definition revertPrediction := changeCoverage decreaseAt.

(** src/mlrl/seco/stopping/stopping_criterion_coverage.cpp, lines 25-34: whether the induction of rules is stopped. *)
Definition coverageStops (threshold : Z) (c : coverage) : bool := negb (threshold <? cvSum c)%Z.

(** ** Vectors of confusion matrices (src/mlrl/seco/data/vector_confusion_matrix_dense.cpp) *)

(** lines 10-31 ([addInternally]). [counts]: the coverage matrix, whose row starts at [offset]. *)
Definition addInternally (li : labelIter) (majority : list nat) (counts : list N) (offset : nat) (weight : Z)
    (numLabels : nat) (v : list confusion) : option (list confusion) :=
  let* (_, _, v) := forN numLabels 0 (fun i st =>
    let '(li, mi, v) := st in
    let* c := aget counts (offset + i) in
    let* v :=
      if (c =? 0)%N then
        let* trueLabel := liDeref li in
        let* m := aget v i in
        aset v i (cmAddTo m trueLabel (fwdDeref mi) weight)
      else Some v in
    Some (liNext li, fwdNext mi, v)) (li, fwdNew majority, v) in
  Some v.

(** lines 46-62 ([add]), and lines 64-80 ([remove]) with a negated weight. *)
Definition vecAdd (lm : labelMatrix) (majority : list nat) (counts : list N) (row : nat) (weight : Z)
    (v : list confusion) : option (list confusion) :=
  let* li := liNew lm row in
  addInternally li majority counts (row * lmCols lm) weight (length v) v.
(** See above (src/mlrl/seco/data/vector_confusion_matrix_dense.cpp, lines 46-62;
    src/mlrl/seco/data/vector_confusion_matrix_dense.cpp, lines 64-80). *)
Definition vecRemove (lm : labelMatrix) (majority : list nat) (counts : list N) (row : nat) (weight : Z)
    (v : list confusion) : option (list confusion) :=
  vecAdd lm majority counts row (- weight) v.

(** [std::lower_bound] on a sorted range. *)
Fixpoint lowerBound (l : list nat) (x : nat) : list nat :=
  match l with [] => [] | h :: t => if h <? x then lowerBound t x else l end.

(** Output indices: all of them or some of them. *)
Inductive outputs := AllOutputs (num : nat) | SomeOutputs (indices : list nat).
Definition numOutputs (o : outputs) : nat := match o with AllOutputs n => n | SomeOutputs l => length l end.

(** lines 82-100 ([addToSubset], complete), 102-129 (partial, dense) and 131-160 (partial, sparse). [labels]: the
    remaining indices of the row of a sparse matrix. *)
Definition vecAddToSubset (lm : labelMatrix) (majority : list nat) (counts : list N) (o : outputs) (row : nat)
    (weight : Z) (v : list confusion) : option (list confusion) :=
  let offset := row * lmCols lm in
  match o with
  | AllOutputs _ => let* li := liNew lm row in addInternally li majority counts offset weight (length v) v
  | SomeOutputs indices =>
      match lmValues lm with
      | DenseLabels values =>
          let* (_, _, v) := forN (length indices) 0 (fun i st =>
            let '(mi, previousIndex, v) := st in
            let* index := aget indices i in
            let* c := aget counts (offset + index) in
            if (c =? 0)%N then
              let* trueLabel := aget values (offset + index) in
              let* mi := fwdAdvance mi index previousIndex in
              let* m := aget v i in
              let* v := aset v i (cmAddTo m trueLabel (fwdDeref mi) weight) in
              Some (mi, index, v)
            else Some (mi, previousIndex, v)) (fwdNew majority, 0, v) in
          Some v
      | CsrLabels rows =>
          let* labels := aget rows row in
          let* (_, _, _, v) := forN (length indices) 0 (fun i st =>
            let '(labels, mi, previousIndex, v) := st in
            let* index := aget indices i in
            let* c := aget counts (offset + index) in
            if (c =? 0)%N then
              let labels := lowerBound labels index in
              let trueLabel := match labels with [] => false | h :: _ => h =? index end in
              let* mi := fwdAdvance mi index previousIndex in
              let* m := aget v i in
              let* v := aset v i (cmAddTo m trueLabel (fwdDeref mi) weight) in
              Some (labels, mi, index, v)
            else Some (labels, mi, previousIndex, v)) (labels, fwdNew majority, 0, v) in
          Some v
      end
  end.

(** lines 42-44: [util::addToView] (common/include/mlrl/common/util/view_functions.hpp, lines 85-89). *)
Definition vecPlus (a b : list confusion) : option (list confusion) :=
  forN (length a) 0 (fun i a => let* x := aget a i in let* y := aget b i in aset a i (cmPlus x y)) a.

(** lines 162-173: [util::setViewToDifference] (view_functions.hpp, lines 203-207 and 226-232). *)
Definition vecDifference (tmp first second : list confusion) (o : outputs) : option (list confusion) :=
  forN (length tmp) 0 (fun i tmp =>
    let* index := match o with AllOutputs _ => Some i | SomeOutputs indices => aget indices i end in
    let* x := aget first index in
    let* y := aget second i in
    aset tmp i (cmMinus x y)) tmp.

(** ** Weighted statistics (src/mlrl/seco/statistics/statistics_common.hpp) *)

(** lines 166-191 ([initializeStatisticVector]). [weights]: the weight of each statistic, all of them are one in case of
    an [EqualWeightVector]. *)
Definition initializeVector (lm : labelMatrix) (majority : list nat) (counts : list N) (weights : list Z)
    (v : list confusion) : option (list confusion) :=
  forN (length weights) 0 (fun i v => let* w := aget weights i in vecAdd lm majority counts i w v) v.

(** lines 425-427: [totalSumVector_], [subsetSumVector_]. *)
Record weighted : Type := mkWeighted { wsTotal : list confusion; wsSubset : list confusion }.

(** lines 452-459. *)
Definition newWeighted (lm : labelMatrix) (majority : list nat) (counts : list N) (weights : list Z) : option weighted :=
  let* total := initializeVector lm majority counts weights (repeat cmZero (lmCols lm)) in
  let* subset := initializeVector lm majority counts weights (repeat cmZero (lmCols lm)) in
  Some (mkWeighted total subset).

(** lines 496-514 ([resetCoveredStatistics], [addCoveredStatistic], [removeCoveredStatistic]). *)
Inductive wsOp := ResetCovered | AddCovered (i : nat) | RemoveCovered (i : nat).
(** See above (src/mlrl/seco/statistics/statistics_common.hpp, lines 496-514). *)
Definition wsStep (lm : labelMatrix) (majority : list nat) (counts : list N) (weights : list Z) (op : wsOp)
    (ws : weighted) : option weighted :=
  match op with
  | ResetCovered => Some (mkWeighted (wsTotal ws) (map (fun _ => cmZero) (wsSubset ws)))
  | AddCovered i =>
      let* w := aget weights i in
      let* v := vecAdd lm majority counts i w (wsSubset ws) in
      Some (mkWeighted (wsTotal ws) v)
  | RemoveCovered i =>
      let* w := aget weights i in
      let* v := vecRemove lm majority counts i w (wsSubset ws) in
      Some (mkWeighted (wsTotal ws) v)
  end.

(** lines 61-72 and 321-327: [sumVector_], [tmpVector_], [accumulatedSumVectorPtr_], [totalCoverableSumVectorPtr_]. As
    long as the latter is a null pointer, [subsetSumVector_] points to the vector of the statistics. *)
Record subset : Type :=
  mkSubset { ssSum : list confusion; ssTmp : list confusion; ssAcc : option (list confusion);
             ssCoverable : option (list confusion) }.

(** See above (src/mlrl/seco/statistics/statistics_common.hpp, lines 61-72 and 321-327). *)
Definition subsetSum (ws : weighted) (s : subset) : list confusion :=
  match ssCoverable s with Some v => v | None => wsSubset ws end.

(** lines 340-366 (constructor); [excluded]: the indices of the statistics to be excluded. *)
Definition newSubset (lm : labelMatrix) (majority : list nat) (counts : list N) (weights : list Z) (ws : weighted)
    (excluded : list nat) (o : outputs) : option subset :=
  let zeros := repeat cmZero (numOutputs o) in
  match excluded with
  | [] => Some (mkSubset zeros zeros None None)
  | _ =>
      let* v := forL excluded (fun i v => let* w := aget weights i in vecRemove lm majority counts i w v) (wsSubset ws) in
      Some (mkSubset zeros zeros None (Some v))
  end.

(** lines 152-155 ([addToSubset]) and 371-382 ([resetSubset]). *)
Inductive ssOp := AddToSubset (i : nat) | ResetSubset.
(** See above (statistics_common.hpp, lines 152-155 and 371-382). *)
Definition ssStep (lm : labelMatrix) (majority : list nat) (counts : list N) (weights : list Z) (o : outputs)
    (op : ssOp) (s : subset) : option subset :=
  match op with
  | AddToSubset i =>
      let* w := aget weights i in
      let* v := vecAddToSubset lm majority counts o i w (ssSum s) in
      Some (mkSubset v (ssTmp s) (ssAcc s) (ssCoverable s))
  | ResetSubset =>
      let* acc := match ssAcc s with None => Some (ssSum s) | Some acc => vecPlus acc (ssSum s) end in
      Some (mkSubset (map (fun _ => cmZero) (ssSum s)) (ssTmp s) (Some acc) (ssCoverable s))
  end.

(** Lines 160-163 ([calculateScores]), 387-391 ([calculateScoresAccumulated]), 396-402 ([calculateScoresUncovered]) and
    407-414 ([calculateScoresUncoveredAccumulated]): the confusion matrices that are passed to the rule evaluation as
    those of the covered examples. Those passed as the total are [wsTotal]. Dereferencing the null pointer
    [accumulatedSumVectorPtr_] is undefined behaviour. *)
Inductive scoring := Covered | CoveredAccumulated | Uncovered | UncoveredAccumulated.
(** See above (statistics_common.hpp, lines 160-163, 387-391, 396-402 and 407-414). *)
Definition scoredVector (o : outputs) (ws : weighted) (s : subset) (k : scoring) : option (list confusion) :=
  match k with
  | Covered => Some (ssSum s)
  | CoveredAccumulated => ssAcc s
  | Uncovered => vecDifference (ssTmp s) (subsetSum ws s) (ssSum s) o
  | UncoveredAccumulated => let* acc := ssAcc s in vecDifference (ssTmp s) (subsetSum ws s) acc o
  end.

(** lines 556-568 and 236-247: the total sums of the statistics created for calculating the predictions of the default
    rule, for pruning rules and for recalculating their predictions. Line 563 uses the number of rows of the label matrix
    as the number of confusion matrices. *)
Definition unweightedTotal (lm : labelMatrix) (majority : list nat) (counts : list N) (weights : list Z) :
    option (list confusion) :=
  initializeVector lm majority counts weights (repeat cmZero (lmRows lm)).

(** common/src/mlrl/common/rule_induction/rule_induction_common.hpp, lines 77-90: the scores predicted by the default rule;
    all statistics have equal weights. The evaluation of the default rule ignores the confusion matrices. *)
Definition defaultRule (lm : labelMatrix) (majority : list nat) (counts : list N) : option (list bool) :=
  let weights := repeat 1%Z (lmRows lm) in
  let* _ := unweightedTotal lm majority counts weights in
  let* _ := forN (lmRows lm) 0 (fun i v =>
    let* w := aget weights i in
    vecAddToSubset lm majority counts (AllOutputs (lmCols lm)) i w v) (repeat cmZero (lmCols lm)) in
  majorityScores majority (seq 0 (lmCols lm)).
