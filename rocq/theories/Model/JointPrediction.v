(** Model of the prediction of probabilities and binary labels of boosting algorithms that take known label vectors into account.
    Paths are relative to cpp/subprojects/boosting/src/mlrl/boosting/prediction unless stated otherwise. Values of type [float64]
    are rational numbers; there is no rounding. A label vector is represented by the indices of its relevant labels. *)
From Coq Require Import QArith List Bool Arith Permutation Sorted.
From Verif Require Import Lib.Arr Model.Containers Model.Labels.
Import ListNotations.
Open Scope Q_scope.

(** cpp/subprojects/common/include/mlrl/common/util/math.hpp, lines 19-22. *)
Definition divideOrZero (numerator denominator : Q) : Q :=
  if Qeq_bool denominator 0 then 0 else numerator / denominator.

(** ** Joint probabilities *)

(** probability_function_chain_rule.cpp, lines 34-56. [marginal]: [transformScoreIntoMarginalProbability], [calibrate]:
    [calibrateJointProbability]. *)
Definition chainRule {S} (marginal : nat -> S -> Q) (calibrate : nat -> Q -> Q) (labelVectorIndex : nat) (labelVector : list nat)
    (scores : list S) : option Q :=
  let* (jointProbability, _) := forN (length scores) 0 (fun i '(jointProbability, labelIterator) =>
    let* score := aget scores i in
    let marginalProbability := marginal i score in
    let trueLabel := bi_deref labelIterator in
    let marginalProbability := if negb trueLabel then 1 - marginalProbability else marginalProbability in
    Some (jointProbability * marginalProbability, bi_incr labelIterator)) (1, bi_create labelVector 0) in
  Some (calibrate labelVectorIndex jointProbability).

(** probability_function_chain_rule.cpp, lines 58-80. [zero]: the score of outputs that are not contained in the row. *)
Definition chainRuleSparse {S} (zero : S) (marginal : nat -> S -> Q) (calibrate : nat -> Q -> Q) (labelVectorIndex : nat)
    (labelVector : list nat) (scores : sset S) (numLabels : nat) : option Q :=
  let* (jointProbability, _) := forN numLabels 0 (fun i '(jointProbability, labelIterator) =>
    let* entry := ss_get scores i in
    let score := match entry with Some (_, value) => value | None => zero end in
    let marginalProbability := marginal i score in
    let trueLabel := bi_deref labelIterator in
    let marginalProbability := if negb trueLabel then 1 - marginalProbability else marginalProbability in
    Some (jointProbability * marginalProbability, bi_incr labelIterator)) (1, bi_create labelVector 0) in
  Some (calibrate labelVectorIndex jointProbability).

(** include/mlrl/boosting/prediction/probability_function_joint.hpp, lines 67-94. [joint]:
    [transformScoresIntoJointProbability], [memory]: the initial content of the vector. *)
Definition transformScoresIntoJointProbabilities (joint : nat -> list nat -> option Q) (labelVectors : list (list nat))
    (memory : list Q) : option (list Q) :=
  let* (probabilities, sumOfJointProbabilities) := forN (length labelVectors) 0 (fun i '(probabilities, sumOfJointProbabilities) =>
    let* labelVector := aget labelVectors i in
    let* jointProbability := joint i labelVector in
    let* probabilities := aset probabilities i jointProbability in
    Some (probabilities, sumOfJointProbabilities + jointProbability)) (memory, 0) in
  forN (length labelVectors) 0 (fun i probabilities =>
    let* jointProbability := aget probabilities i in
    aset probabilities i (divideOrZero jointProbability sumOfJointProbabilities)) probabilities.

(** include/mlrl/boosting/prediction/probability_function_joint.hpp, lines 99-105. *)
Definition measureDistance (joint : nat -> list nat -> option Q) (labelVectorIndex : nat) (labelVector : list nat) : option Q :=
  let* jointProbability := joint labelVectorIndex labelVector in Some (1 - jointProbability).

(** ** Marginalised probabilities *)

(** transformation_probability_marginalized.cpp, lines 17-31. *)
Definition marginalize (labelVectors : list (list nat)) (jointProbabilities : list Q) (numLabels : nat) : option (list Q) :=
  forN (length labelVectors) 0 (fun i probabilities =>
    let* labelVector := aget labelVectors i in
    let* jointProbability := aget jointProbabilities i in
    forN (length labelVector) 0 (fun j probabilities =>
      let* labelIndex := aget labelVector j in
      let* probability := aget probabilities labelIndex in
      aset probabilities labelIndex (probability + jointProbability)) probabilities) (repeat 0 numLabels).

(** ** Example-wise prediction *)

(** cpp/subprojects/common/include/mlrl/common/measures/measure_distance.hpp, lines 44-67. [distance]: [measureDistance]. *)
Definition getClosestLabelVector (distance : nat -> list nat -> option Q) (labelVectors : list (list nat)) (frequencies : list nat)
    : option (list nat) :=
  let* first := aget labelVectors 0 in
  let* firstFrequency := aget frequencies 0 in
  let* firstDistance := distance 0%nat first in
  let* (closest, _, _) := forN (length labelVectors - 1) 1 (fun i '(closest, maxFrequency, minDistance) =>
    let* labelVector := aget labelVectors i in
    let* frequency := aget frequencies i in
    let* d := distance i labelVector in
    Some (if negb (Qle_bool minDistance d) || (Qeq_bool d minDistance && (maxFrequency <? frequency)%nat)
          then (labelVector, frequency, d) else (closest, maxFrequency, minDistance))) (first, firstFrequency, firstDistance) in
  Some closest.

(** transformation_binary_example_wise.cpp, lines 11-25. [prediction]: the initial content of the row. *)
Definition predictExampleWise (distance : nat -> list nat -> option Q) (labelVectors : list (list nat)) (frequencies : list nat)
    (prediction : list bool) : option (list bool) :=
  let* labelVector := getClosestLabelVector distance labelVectors frequencies in
  let* (prediction, _) := forN (length prediction) 0 (fun i '(prediction, labelIterator) =>
    let* prediction := aset prediction i (bi_deref labelIterator) in
    Some (prediction, bi_incr labelIterator)) (prediction, bi_create labelVector 0) in
  Some prediction.

(** transformation_binary_example_wise.cpp, lines 27-40: the row of a sparse matrix is initially empty. *)
Definition predictExampleWiseSparse (distance : nat -> list nat -> option Q) (labelVectors : list (list nat))
    (frequencies : list nat) : option (list nat) :=
  let* labelVector := getClosestLabelVector distance labelVectors frequencies in
  forN (length labelVector) 0 (fun i row => let* labelIndex := aget labelVector i in Some (row ++ [labelIndex])) [].

(** ** Prediction via the general F-measure maximiser (GFM) *)

(** transformation_binary_gfm.cpp, lines 10-25. *)
Definition getMaxLabelCardinality (labelVectors : list (list nat)) : option nat :=
  forN (length labelVectors) 0 (fun i maxLabelCardinality =>
    let* labelVector := aget labelVectors i in
    let numRelevantLabels := length labelVector in
    Some (if (maxLabelCardinality <? numRelevantLabels)%nat then numRelevantLabels else maxLabelCardinality)) 0%nat.

(** transformation_binary_gfm.cpp, lines 27-54. [probabilities]: the rows of a matrix. *)
Definition calculateMarginalizedProbabilities (probabilities : list (sset Q)) (jointProbabilities : list Q)
    (labelVectors : list (list nat)) : option (list (sset Q) * Q) :=
  forN (length labelVectors) 0 (fun i '(probabilities, nullVectorProbability) =>
    let* labelVector := aget labelVectors i in
    let numRelevantLabels := length labelVector in
    let* jointProbability := aget jointProbabilities i in
    if (0 <? numRelevantLabels)%nat then
      let* probabilities := forN numRelevantLabels 0 (fun j probabilities =>
        let* labelIndex := aget labelVector j in
        let* row := aget probabilities labelIndex in
        let* row := ss_emplace row (numRelevantLabels - 1) 0 in
        let* row := ss_update row (numRelevantLabels - 1) (fun value => value + jointProbability) in
        aset probabilities labelIndex row) probabilities in
      Some (probabilities, nullVectorProbability)
    else Some (probabilities, jointProbability)) (probabilities, 0).

(** transformation_binary_gfm.cpp, lines 56-84. [sort]: [std::partial_sort] of the given number of elements. *)
Definition createAndEvaluateLabelVector (sort : nat -> list (nat * Q) -> list (nat * Q)) (entries : list (nat * Q))
    (numLabels : nat) (probabilities : list (sset Q)) (k : nat) : option (list (nat * Q) * Q) :=
  let* entries := forN numLabels 0 (fun i entries =>
    let* row := aget probabilities i in
    let* weightedProbability := forL (ss_values row) (fun indexedValue weightedProbability =>
      Some (weightedProbability + 2 * snd indexedValue / inject_Z (Z.of_nat (fst indexedValue + k + 1)))) 0 in
    aset entries i (i, weightedProbability)) entries in
  let entries := sort k entries in
  let* quality := forN k 0 (fun i quality => let* entry := aget entries i in Some (quality + snd entry)) 0 in
  Some (entries, quality).

(** A possible outcome of [std::partial_sort] (lines 72-75). *)
Definition precedes (a b : nat * Q) : Prop := snd b <= snd a.
(** See above (transformation_binary_gfm.cpp, lines 72-75). *)
Definition partialSort (n : nat) (before after : list (nat * Q)) : Prop :=
  Permutation before after /\ StronglySorted precedes (firstn n after) /\
  Forall (fun a => Forall (precedes a) (skipn n after)) (firstn n after).

(** transformation_binary_gfm.cpp, lines 113-145 (without storing the prediction). [memory1], [memory2]: the initial content of
    the temporary vectors. The result is the best vector and its number of elements. *)
Definition predictGfm (sort : nat -> list (nat * Q) -> list (nat * Q)) (labelVectors : list (list nat))
    (jointProbabilities : list Q) (numLabels : nat) (memory1 memory2 : list (nat * Q)) : option (list (nat * Q) * nat) :=
  let* maxLabelCardinality := getMaxLabelCardinality labelVectors in
  let probabilities := repeat (ss_empty Q maxLabelCardinality) numLabels in
  let* (probabilities, bestQuality) := calculateMarginalizedProbabilities probabilities jointProbabilities labelVectors in
  let* (best, numElements, _, _) := forN numLabels 0 (fun i '(best, numElements, tmp, bestQuality) =>
    let k := (i + 1)%nat in
    let* (tmp, quality) := createAndEvaluateLabelVector sort tmp numLabels probabilities k in
    Some (if negb (Qle_bool quality bestQuality) then (tmp, k, best, quality) else (best, numElements, tmp, bestQuality)))
    (memory1, 0%nat, memory2, bestQuality) in
  Some (best, numElements).

(** transformation_binary_gfm.cpp, lines 86-96. *)
Definition storePrediction (vector : list (nat * Q)) (numRelevantLabels numLabels : nat) : option (list bool) :=
  forN numRelevantLabels 0 (fun i prediction =>
    let* entry := aget vector i in aset prediction (fst entry) true) (repeat false numLabels).

(** transformation_binary_gfm.cpp, lines 98-111. [sortByIndex]: [std::sort] by index. *)
Definition storePredictionSparse (sortByIndex : list (nat * Q) -> list (nat * Q)) (vector : list (nat * Q))
    (numRelevantLabels : nat) : option (list nat) :=
  if (0 <? numRelevantLabels)%nat then
    let sorted := sortByIndex (firstn numRelevantLabels vector) in
    forN numRelevantLabels 0 (fun i row => let* entry := aget sorted i in Some (row ++ [fst entry])) []
  else Some [].

(** A possible outcome of [std::sort] by index (line 104). *)
Definition sortedByIndex (before after : list (nat * Q)) : Prop :=
  Permutation before after /\ StronglySorted (fun a b => (fst a <= fst b)%nat) after.

(** transformation_binary_gfm.cpp, lines 152-157 and 159-164. *)
Definition applyGfm sort labelVectors jointProbabilities numLabels memory1 memory2 : option (list bool) :=
  let* (best, numElements) := predictGfm sort labelVectors jointProbabilities numLabels memory1 memory2 in
  storePrediction best numElements numLabels.
(** See above (transformation_binary_gfm.cpp, lines 152-157 and 159-164). *)
Definition applyGfmSparse sort sortByIndex labelVectors jointProbabilities numLabels memory1 memory2 : option (list nat) :=
  let* (best, numElements) := predictGfm sort labelVectors jointProbabilities numLabels memory1 memory2 in
  storePredictionSparse sortByIndex best numElements.
