(** Model of the evaluation of rules by boosting algorithms that use non-decomposable loss functions and gradient-based label
    binning. Paths are relative to cpp/subprojects/boosting/src/mlrl/boosting unless stated otherwise. Values of type [float64]
    are rational numbers; there is no rounding and no overflow. *)
From Coq Require Import QArith Qabs Reals Qreals ZArith List Bool Arith.
From Verif Require Import Lib.Arr Model.BoostEvaluation Model.BoostBinning Model.BoostNonDecomposable.
Import ListNotations.
Open Scope Q_scope.

Definition weightOf (n : nat) : Q := inject_Z (Z.of_nat n).

(** include/mlrl/boosting/util/math.hpp, lines 54-65 and 103-114. *)
Definition weightedL1Norm (values : list Q) (weights : list nat) (n : nat) : option Q :=
  forN n 0 (fun i result =>
    let* value := aget values i in
    let* weight := aget weights i in
    Some (result + Qabs value * weightOf weight)) 0.
(** See above (include/mlrl/boosting/util/math.hpp, lines 54-65 and 103-114). *)
Definition weightedL2NormPow (values : list Q) (weights : list nat) (n : nat) : option Q :=
  forN n 0 (fun i result =>
    let* value := aget values i in
    let* weight := aget weights i in
    Some (result + value * value * weightOf weight)) 0.

(** rule_evaluation/rule_evaluation_non_decomposable_binned_common.hpp, lines 23-38. The result are the arrays
    [numElementsPerBin] and [binIndices], as well as the number of bins that are not empty. *)
Definition removeEmptyBins (numElementsPerBin binIndices : list nat) (numBins : nat) : option (list nat * list nat * nat) :=
  forN numBins 0 (fun i '(numElementsPerBin, binIndices, n) =>
    let* binIndices := aset binIndices i n in
    let* numElements := aget numElementsPerBin i in
    if (0 <? numElements)%nat then
      let* numElementsPerBin := aset numElementsPerBin n numElements in
      Some (numElementsPerBin, binIndices, (n + 1)%nat)
    else Some (numElementsPerBin, binIndices, n)) (numElementsPerBin, binIndices, 0%nat).

(** Adding a value to an element of an array. *)
Definition addAt (a : list Q) (i : nat) (value : Q) : option (list Q) := let* old := aget a i in aset a i (old + value).

(** lines 61-77. [indices]: the bins of the individual labels. *)
Definition aggregateDiagonal (gradientIterator hessianIterator : list Q) (numElements : nat) (binIndices : list nat) (maxBins : nat)
    (st : list nat * list Q * list Q) : option (list nat * list Q * list Q) :=
  forN numElements 0 (fun i '(indices, gradients, hessians) =>
    let* originalBinIndex := aget indices i in
    if negb (originalBinIndex =? maxBins)%nat then
      let* binIndex := aget binIndices originalBinIndex in
      let* indices := aset indices i binIndex in
      let* g := aget gradientIterator i in
      let* gradients := addAt gradients binIndex g in
      let* h := aget hessianIterator (triangularNumber (i + 1) - 1) in
      let* hessians := addAt hessians (triangularNumber (binIndex + 1) - 1) h in
      Some (indices, gradients, hessians)
    else Some (indices, gradients, hessians)) st.

(** lines 79-104. *)
Definition aggregateOffDiagonal (hessianIterator : list Q) (numElements : nat) (indices : list nat) (maxBins : nat)
    (hessians : list Q) : option (list Q) :=
  forN (numElements - 1) 1 (fun i hessians =>
    let* binIndex := aget indices i in
    if negb (binIndex =? maxBins)%nat then
      forN i 0 (fun j hessians =>
        let* binIndex2 := aget indices j in
        if negb (binIndex2 =? maxBins)%nat && negb (binIndex =? binIndex2)%nat then
          let '(r, c) := if (binIndex <? binIndex2)%nat then (binIndex, binIndex2) else (binIndex2, binIndex) in
          let* h := aget hessianIterator (triangularNumber i + j) in
          addAt hessians (triangularNumber c + r) h
        else Some hessians) hessians
    else Some hessians) hessians.

(** lines 115-122. *)
Definition addWeightedL1 (ordinates : list Q) (n : nat) (weights : list nat) (l1 : Q) : option (list Q) :=
  forN n 0 (fun i ordinates =>
    let* weight := aget weights i in
    let* gradient := aget ordinates i in
    aset ordinates i (gradient + weightOf weight * getL1RegularizationWeight gradient l1)) ordinates.

(** lines 132-138. *)
Definition addWeightedL2 (coefficients : list Q) (n : nat) (weights : list nat) (l2 : Q) : option (list Q) :=
  forN n 0 (fun i coefficients =>
    let* weight := aget weights i in
    addAt coefficients (i * n + i) (weightOf weight * l2)) coefficients.

(** lines 150-167. *)
Definition weightedRegularizationTerm (values : list Q) (weights : list nat) (n : nat) (l1 l2 : Q) : option Q :=
  let* term1 := if gtb l1 0 then let* norm := weightedL1Norm values weights n in Some (l1 * norm) else Some 0 in
  if gtb l2 0 then let* norm := weightedL2NormPow values weights n in Some (term1 + (1 # 2) * l2 * norm) else Some term1.

(** The mutable members of [AbstractNonDecomposableBinnedRuleEvaluation] (lines 185-193): the indices of bins and the values of
    the score vector, the aggregated gradients and Hessians, the mapping to bins that are not empty and the number of elements
    per bin. The array [criteria_] is overwritten before it is read and the arrays used by DSYSV and DSPMV are treated
    separately. *)
Record ndBinnedState : Type := mkNDState {
  ndIndices : list nat; ndValues : list Q; ndGradients : list Q; ndHessians : list Q; ndBinIndices : list nat; ndCounts : list nat
}.

(** The arrays have the sizes they are allocated with (lines 251-253). The last value is zero (line 258). *)
Definition allocatedND (numOutputs maxBins : nat) (s : ndBinnedState) : Prop :=
  length (ndIndices s) = numOutputs /\ length (ndValues s) = (maxBins + 1)%nat /\ nth maxBins (ndValues s) 1 = 0 /\
  length (ndGradients s) = maxBins /\ length (ndHessians s) = triangularNumber maxBins /\
  length (ndBinIndices s) = maxBins /\ length (ndCounts s) = maxBins.

(** cpp/subprojects/common/src/mlrl/common/rule_evaluation/score_vector_binned_dense.cpp, lines 28-40: the value of the bin of each
    output. *)
Definition binnedValues (indices : list nat) (values : list Q) (n : nat) : option (list Q) :=
  forN n 0 (fun i predicted =>
    let* binIndex := aget indices i in
    let* value := aget values binIndex in
    Some (predicted ++ [value])) [].

(** lines 264-335. [tmp]: the previous content of the array that is used for the coefficients (its size is the square of
    [maxBins], see rule_evaluation_non_decomposable_common.hpp). [outputs]: the indices of the outputs the score vector predicts
    for. DSYSV operates on the array that stores the values of bins; here, its outcome is copied to this array. *)
Definition evaluateBinsND (nan : option nat) (dsysv : solver) (c : binningConfig) (maxBins : nat) (l1 l2 : Q) (tmp : list Q)
    (s : ndBinnedState) (outputs : list nat) (gradientIterator hessianIterator : list Q) (criteria : list Q) (numCriteria : nat)
    : option (scores * ndBinnedState) :=
  let* info := getLabelInfo c criteria numCriteria in
  let numBins := (numPositiveBins info + numNegativeBins info)%nat in
  if (0 <? numBins)%nat then
    let* counts := setToZeros 0%nat (ndCounts s) numBins in
    let* bins := createBins nan info criteria numCriteria in
    let* (indices, counts) := forN numCriteria 0 (fun labelIndex '(indices, counts) =>
      let* bin := aget bins labelIndex in
      match bin with
      | Some binIndex =>
          let* n := aget counts binIndex in
          let* counts := aset counts binIndex (n + 1)%nat in
          let* indices := aset indices labelIndex binIndex in
          Some (indices, counts)
      | None =>
          let* indices := aset indices labelIndex maxBins in
          Some (indices, counts)
      end) (ndIndices s, counts) in
    let* (counts, binIndices, n) := removeEmptyBins counts (ndBinIndices s) numBins in
    let* gradients := setToZeros 0 (ndGradients s) n in
    let* hessians := setToZeros 0 (ndHessians s) (triangularNumber n) in
    let* (indices, gradients, hessians) :=
      aggregateDiagonal gradientIterator hessianIterator numCriteria binIndices maxBins (indices, gradients, hessians) in
    let* hessians := aggregateOffDiagonal hessianIterator numCriteria indices maxBins hessians in
    let* coefficients := copyCoefficients hessians tmp n in
    let* coefficients := addWeightedL2 coefficients n counts l2 in
    let* ordinates := copyOrdinates gradients n in
    let* ordinates := addWeightedL1 ordinates n counts l1 in
    let* solution := dsysv n coefficients ordinates in
    let* quality := calculateOverallQuality solution gradients hessians n in
    let* term := weightedRegularizationTerm solution counts n l1 l2 in
    let* values := forN n 0 (fun i values => let* value := aget solution i in aset values i value) (ndValues s) in
    let* predicted := binnedValues indices values (length outputs) in
    Some (mkScores outputs predicted (quality + term), mkNDState indices values gradients hessians binIndices counts)
  else
    let* indices := setToZeros maxBins (ndIndices s) numCriteria in
    let* predicted := binnedValues indices (ndValues s) (length outputs) in
    Some (mkScores outputs predicted 0,
          mkNDState indices (ndValues s) (ndGradients s) (ndHessians s) (ndBinIndices s) (ndCounts s)).

(** lines 351-366 and rule_evaluation_non_decomposable_complete_binned.cpp, lines 13-31. *)
Definition evaluateCompleteBinnedND (nan : option nat) (dsysv : solver) (c : binningConfig) (l1 l2 : Q) (tmp : list Q)
    (s : ndBinnedState) (indices : list nat) (gradients hessians : list Q) : option (scores * ndBinnedState) :=
  let* statistics := diagonal gradients hessians in
  let* criteria := forN (length indices) 0 (fun i criteria =>
    let* t := aget statistics i in Some (criteria ++ [calculateOutputWiseScore l1 l2 t])) [] in
  evaluateBinsND nan dsysv c (getMaxBins c (length indices)) l1 l2 tmp s indices gradients hessians criteria (length indices).

(** rule_evaluation_non_decomposable_partial_fixed_binned.cpp, lines 30-52 and 94-105. [sorted]: the outcome of
    [std::partial_sort]. *)
Definition evaluateFixedBinnedND (nan : option nat) (dsysv : solver) (c : binningConfig) (l1 l2 : Q) (tmp : list Q)
    (s : ndBinnedState) (numPredictions : nat) (indices : list nat) (gradients hessians : list Q) (sorted : list (nat * Q))
    : option (scores * ndBinnedState) :=
  let* (predicted, criteria) := forN numPredictions 0 (fun i '(predicted, criteria) =>
    let* (index, score) := aget sorted i in
    let* outputIndex := aget indices index in
    Some (predicted ++ [outputIndex], criteria ++ [score])) ([], []) in
  evaluateBinsND nan dsysv c (getMaxBins c numPredictions) l1 l2 tmp s predicted gradients hessians criteria numPredictions.
