(** Model of gradient-based label binning and of the evaluation of rules that makes use of it. Paths are relative to
    cpp/subprojects/boosting/src/mlrl/boosting unless stated otherwise. Values of type [float64] are rational numbers; there is
    no rounding and no overflow. *)
From Coq Require Import QArith Qabs Qround Reals Qreals ZArith List Bool Arith.
From Verif Require Import Lib.Arr Model.Sampling Model.BoostEvaluation.
Import ListNotations.
Open Scope Q_scope.

(** ** Label binning *)

(** binning/label_binning_equal_width.cpp, lines 21-25. *)
Record binningConfig : Type := mkBinning { binRatio : Q; minBins : nat; maxBins : nat }.

(** lines 40-42. *)
Definition getMaxBins (c : binningConfig) (numLabels : nat) : nat :=
  (calculateBoundedFraction numLabels (binRatio c) (minBins c) (maxBins c) + 1)%nat.

(** include/mlrl/boosting/binning/label_binning.hpp, lines 21-53. The initial values of [maxNegative] and [minPositive] are
    infinite ([None]). *)
Record labelInfo : Type := mkInfo {
  numPositiveBins : nat; minPositive : option Q; maxPositive : Q;
  numNegativeBins : nat; minNegative : Q; maxNegative : option Q
}.

(** lines 55-79: the body of the loop. *)
Definition updateInfo (info : labelInfo) (criterion : Q) : labelInfo :=
  if ltb criterion 0 then
    mkInfo (numPositiveBins info) (minPositive info) (maxPositive info) (numNegativeBins info + 1)
      (if ltb criterion (minNegative info) then criterion else minNegative info)
      (match maxNegative info with
       | Some m => if gtb criterion m then Some criterion else Some m
       | None => Some criterion
       end)
  else if gtb criterion 0 then
    mkInfo (numPositiveBins info + 1)
      (match minPositive info with
       | Some m => if ltb criterion m then Some criterion else Some m
       | None => Some criterion
       end)
      (if gtb criterion (maxPositive info) then criterion else maxPositive info)
      (numNegativeBins info) (minNegative info) (maxNegative info)
  else info.

(** lines 44-93. If there are no criteria, the minima and maxima are not initialized, but are not used either. *)
Definition getLabelInfo (c : binningConfig) (criteria : list Q) (numCriteria : nat) : option labelInfo :=
  let* info := forN numCriteria 0 (fun i info => let* criterion := aget criteria i in Some (updateInfo info criterion))
    (mkInfo 0 None 0 0 0 None) in
  let limit n := if (0 <? n)%nat then calculateBoundedFraction n (binRatio c) (minBins c) (maxBins c) else n in
  Some (mkInfo (limit (numPositiveBins info)) (minPositive info) (maxPositive info)
               (limit (numNegativeBins info)) (minNegative info) (maxNegative info)).

(** lines 111-116 and 120-125. Dividing by a span of zero results in NaN, as the numerator is zero, too. [nan]: the result of
    converting NaN into an unsigned integer, [None] if this is considered to be undefined (as specified by the standard). *)
Definition binIndexOf (nan : option nat) (criterion minimum span : Q) (numBins : nat) : option nat :=
  let* binIndex := if Qeq_bool span 0 then nan else Some (Z.to_nat (Qfloor ((criterion - minimum) / span))) in
  Some (if (numBins <=? binIndex)%nat then (numBins - 1)%nat else binIndex).

(** lines 104-105. A span of zero is used if there are no such criteria. *)
Definition spanOf (minimum maximum : option Q) (numBins : nat) : Q :=
  match minimum, maximum with
  | Some a, Some b => (b - a) / inject_Z (Z.of_nat numBins)
  | _, _ => 0
  end.

(** lines 95-132. The result are the bins of the individual labels that are passed to [callback], respectively [None] if
    [zeroCallback] is invoked. *)
Definition createBins (nan : option nat) (info : labelInfo) (criteria : list Q) (numCriteria : nat) : option (list (option nat)) :=
  let spanPerNegativeBin :=
    spanOf (if ltb (minNegative info) 0 then Some (minNegative info) else None) (maxNegative info) (numNegativeBins info) in
  let spanPerPositiveBin :=
    spanOf (minPositive info) (if gtb (maxPositive info) 0 then Some (maxPositive info) else None) (numPositiveBins info) in
  forN numCriteria 0 (fun i bins =>
    let* criterion := aget criteria i in
    if ltb criterion 0 then
      let* binIndex := binIndexOf nan criterion (minNegative info) spanPerNegativeBin (numNegativeBins info) in
      Some (bins ++ [Some binIndex])
    else if gtb criterion 0 then
      let* minimum := minPositive info in
      let* binIndex := binIndexOf nan criterion minimum spanPerPositiveBin (numPositiveBins info) in
      Some (bins ++ [Some (numNegativeBins info + binIndex)%nat])
    else Some (bins ++ [None])) [].

(** ** Rule evaluation *)

(** common/include/mlrl/common/util/view_functions.hpp, lines 21-23: [util::setViewToZeros]. *)
Definition setToZeros {A} (zero : A) (a : list A) (n : nat) : option (list A) := forN n 0 (fun i a => aset a i zero) a.

(** common/include/mlrl/common/data/tuple.hpp, lines 78-82. *)
Definition addTuple (a b : tuple) : tuple := (fst a + fst b, snd a + snd b).

(** rule_evaluation/rule_evaluation_decomposable_binned_common.hpp, lines 29-46. *)
Definition calculateBinnedScores (l1 l2 : Q) (statistics : list tuple) (values : list Q) (weights : list nat) (numElements : nat)
    : option (list Q * Q) :=
  forN numElements 0 (fun i '(values, quality) =>
    let* weight := aget weights i in
    let weight := inject_Z (Z.of_nat weight) in
    let* t := aget statistics i in
    let score := calculateOutputWiseScore (weight * l1) (weight * l2) t in
    let* values := aset values i score in
    Some (values, quality + calculateOutputWiseQuality (weight * l1) (weight * l2) score t)) (values, 0).

(** The mutable members of [AbstractDecomposableBinnedRuleEvaluation] (lines 63-67): the indices of bins and the values of the
    score vector, the aggregated statistics and the number of elements per bin. *)
Record binnedState : Type := mkState { stIndices : list nat; stValues : list Q; stAggregated : list tuple; stCounts : list nat }.

(** The arrays have the sizes they are allocated with (lines 112-115). The last value is zero (line 119). *)
Definition allocated (numOutputs maxBins : nat) (s : binnedState) : Prop :=
  length (stIndices s) = numOutputs /\ length (stValues s) = (maxBins + 1)%nat /\ nth maxBins (stValues s) 1 = 0 /\
  length (stAggregated s) = maxBins /\ length (stCounts s) = maxBins.

(** lines 132-160. [outputs]: the indices of the outputs the score vector predicts for. *)
Definition evaluateBins (nan : option nat) (c : binningConfig) (maxBins : nat) (l1 l2 : Q) (s : binnedState) (outputs : list nat)
    (statistics : list tuple) (criteria : list Q) (numCriteria : nat) : option (scores * binnedState) :=
  let* info := getLabelInfo c criteria numCriteria in
  let numBins := (numPositiveBins info + numNegativeBins info)%nat in
  let* aggregated := setToZeros (0, 0) (stAggregated s) numBins in
  let* counts := setToZeros 0%nat (stCounts s) numBins in
  let* bins := createBins nan info criteria numCriteria in
  let* (indices, aggregated, counts) := forN numCriteria 0 (fun labelIndex '(indices, aggregated, counts) =>
    let* bin := aget bins labelIndex in
    match bin with
    | Some binIndex =>
        let* a := aget aggregated binIndex in
        let* t := aget statistics labelIndex in
        let* aggregated := aset aggregated binIndex (addTuple a t) in
        let* n := aget counts binIndex in
        let* counts := aset counts binIndex (n + 1)%nat in
        let* indices := aset indices labelIndex binIndex in
        Some (indices, aggregated, counts)
    | None =>
        let* indices := aset indices labelIndex maxBins in
        Some (indices, aggregated, counts)
    end) (stIndices s, aggregated, counts) in
  let* (values, quality) := calculateBinnedScores l1 l2 aggregated (stValues s) counts numBins in
  let* predicted := forN (length outputs) 0 (fun i predicted =>
    let* binIndex := aget indices i in
    let* value := aget values binIndex in
    Some (predicted ++ [value])) [] in
  Some (mkScores outputs predicted quality, mkState indices values aggregated counts).

(** lines 179-191 and 125-162. *)
Definition evaluateCompleteBinned (nan : option nat) (c : binningConfig) (l1 l2 : Q) (s : binnedState) (indices : list nat)
    (statistics : list tuple) : option (scores * binnedState) :=
  let* criteria := forN (length indices) 0 (fun i criteria =>
    let* t := aget statistics i in Some (criteria ++ [calculateOutputWiseScore l1 l2 t])) [] in
  evaluateBins nan c (getMaxBins c (length indices)) l1 l2 s indices statistics criteria (length indices).

(** rule_evaluation/rule_evaluation_decomposable_partial_fixed_binned.cpp, lines 30-48 and 68-70. [sorted]: the outcome of
    [std::partial_sort]. *)
Definition evaluateFixedBinned (nan : option nat) (c : binningConfig) (l1 l2 : Q) (s : binnedState) (numPredictions : nat)
    (indices : list nat) (statistics : list tuple) (sorted : list (nat * Q)) : option (scores * binnedState) :=
  let* (predicted, criteria) := forN numPredictions 0 (fun i '(predicted, criteria) =>
    let* (index, score) := aget sorted i in
    let* outputIndex := aget indices index in
    Some (predicted ++ [outputIndex], criteria ++ [score])) ([], []) in
  evaluateBins nan c (getMaxBins c numPredictions) l1 l2 s predicted statistics criteria numPredictions.

(** rule_evaluation/rule_evaluation_decomposable_partial_dynamic_binned.cpp, lines 32-59 and 85-88. *)
Definition evaluateDynamicBinned (nan : option nat) (c : binningConfig) (l1 l2 threshold exponent : Q) (s : binnedState)
    (indices : list nat) (statistics : list tuple) : option (scores * binnedState) :=
  let threshold_ := 1 - threshold in
  let* (minAbsScore, maxAbsScore) := getMinAndMaxScore l1 l2 statistics in
  let limit := calculateThreshold minAbsScore maxAbsScore threshold_ exponent in
  let* (predicted, criteria) := forN (length statistics) 0 (fun i '(predicted, criteria) =>
    let* t := aget statistics i in
    let score := calculateOutputWiseScore l1 l2 t in
    if Rge_dec (calculateWeightedScore score minAbsScore exponent) limit then
      let* outputIndex := aget indices i in
      Some (predicted ++ [outputIndex], criteria ++ [score])
    else Some (predicted, criteria)) ([], []) in
  evaluateBins nan c (getMaxBins c (length indices)) l1 l2 s predicted statistics criteria (length predicted).
