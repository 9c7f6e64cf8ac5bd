(** Model of the predictors of the boosting algorithm that transform scores into binary labels or probabilities. Paths are
    relative to cpp/subprojects/boosting unless stated otherwise. The iterations of the parallel loops in
    cpp/subprojects/common/include/mlrl/common/prediction/predictor_common.hpp, lines 75-88 and 159-173, are executed one after
    the other in an arbitrary order, each one by an arbitrary thread; interleavings of their steps are considered in
    Model/Prediction.v. *)
From Coq Require Import ZArith NArith QArith List Bool Arith.
From Verif Require Import Lib.Arr Model.Labels Model.Rules Model.Prediction Model.JointPrediction.
Import ListNotations.
Open Scope nat_scope.

(** cpp/subprojects/common/include/mlrl/common/util/threads.hpp, lines 33-38. [preferred]: [numPreferredThreads], [cores]:
    [getNumAvailableCpuCores()]. *)
Definition getNumAvailableThreads (multiThreadingSupport : bool) (cores preferred : nat) : nat :=
  if multiThreadingSupport then (if 0 <? preferred then Nat.min cores preferred else cores) else 1.

(** predictor_common.hpp, lines 81-85 and 165-169. [thread]: [omp_get_thread_num()]. *)
Definition getThreadIndex (multiThreadingSupport : bool) (thread : nat) : nat :=
  if multiThreadingSupport then thread else 1.

Section Predictors.
Context {V : Type} (add : V -> V -> V) (zero : V) (junk : fval).

(** ** Transformation into binary labels *)

(** src/mlrl/boosting/prediction/transformation_binary_output_wise.cpp, lines 9-20. [prediction]: the content of the row. *)
Definition applyOutputWise (discretizeScore : nat -> V -> bool) (scores : list V) (prediction : list bool) : option (list bool) :=
  forN (length scores) 0 (fun i prediction =>
    let* score := aget scores i in aset prediction i (discretizeScore i score)) prediction.

(** transformation_binary_output_wise.cpp, lines 22-34. *)
Definition applyOutputWiseSparse (discretizeScore : nat -> V -> bool) (scores : list V) (predictionRow : list nat)
    : option (list nat) :=
  forN (length scores) 0 (fun i predictionRow =>
    let* score := aget scores i in
    Some (if discretizeScore i score then predictionRow ++ [i] else predictionRow)) predictionRow.

(** The remaining transformations are modelled in Model/JointPrediction.v. Those that write dense rows overwrite them, the
    others append to the given row: transformation_binary_example_wise.cpp, lines 36-39, transformation_binary_gfm.cpp,
    lines 107-109. [predict]: the indices of the labels that are predicted, depending on the scores. *)
Definition applySparse (predict : list V -> option (list nat)) (scores : list V) (predictionRow : list nat) : option (list nat) :=
  let* indices := predict scores in Some (predictionRow ++ indices).

(** ** Binary predictors *)

Section Rows.
(** [P]: a row of the prediction matrix, [apply]: [IBinaryTransformation::apply]. *)
Context {P : Type} (apply : list V -> P -> option P).

(** include/mlrl/boosting/prediction/predictor_binary_common.hpp, lines 117-129 and 309-321. *)
Definition predictForExample (m : featureMatrix) (rulesBegin rulesEnd : rlIter (rule V)) (threadIndex exampleIndex : nat)
    (st : list (list V) * list P) : option (list (list V) * list P) :=
  let '(realMatrix, predictionMatrix) := st in
  let* row := aget realMatrix threadIndex in
  let* realMatrix := aset realMatrix threadIndex (repeat zero (length row)) in
  let* row := aget realMatrix threadIndex in
  let* row := aggregateScores add junk m rulesBegin rulesEnd exampleIndex row in
  let* realMatrix := aset realMatrix threadIndex row in
  let* prediction := aget predictionMatrix exampleIndex in
  let* prediction := apply row prediction in
  let* predictionMatrix := aset predictionMatrix exampleIndex prediction in
  Some (realMatrix, predictionMatrix).

(** predictor_binary_common.hpp, lines 51-62 and 235-247. [clear]: [std::vector::clear] in line 243, nothing in the first case. *)
Definition incrementForExample (clear : P -> P) (m : featureMatrix) (rulesBegin rulesEnd : rlIter (rule V)) (exampleIndex : nat)
    (st : list (list V) * list P) : option (list (list V) * list P) :=
  let '(realMatrix, predictionMatrix) := st in
  let* row := aget realMatrix exampleIndex in
  let* row := aggregateScores add junk m rulesBegin rulesEnd exampleIndex row in
  let* realMatrix := aset realMatrix exampleIndex row in
  let* prediction := aget predictionMatrix exampleIndex in
  let* prediction := apply row (clear prediction) in
  let* predictionMatrix := aset predictionMatrix exampleIndex prediction in
  Some (realMatrix, predictionMatrix).
End Rows.

(** predictor_common.hpp, lines 68-88 and 151-175: the loops over the examples. [order]: the examples in the order in which
    they are processed, together with the index of the thread. *)
Definition dispatch {S} (predictForExample : nat -> nat -> S -> option S) (order : list (nat * nat)) (st : S) : option S :=
  forL order (fun '(exampleIndex, threadIndex) st => predictForExample threadIndex exampleIndex st) st.

(** See above (predictor_common.hpp, lines 68-88 and 151-175). *)
Definition dispatchSparse {R} (predictForExample : nat -> nat -> list R * list (list nat) -> option (list R * list (list nat)))
    (order : list (nat * nat)) (st : list R * list (list nat)) : option (list R * list (list nat) * N) :=
  forL order (fun '(exampleIndex, threadIndex) '(st, numDenseElements) =>
    let* st := predictForExample threadIndex exampleIndex st in
    let* predictionRow := aget (snd st) exampleIndex in
    Some (st, ((numDenseElements + N.of_nat (length predictionRow)) mod 2 ^ 32)%N)) (st, 0%N).

(** predictor_binary_common.hpp, lines 166-181. [realMemory], [memory]: the initial content of allocated memory. *)
Definition predictBinary (transformation : option (list V -> list bool -> option (list bool))) (m : featureMatrix)
    (model : ruleList (rule V)) (numLabels maxRules : nat) (order : list (nat * nat)) (realMemory : list (list V))
    (memory : list (list bool)) : option (list (list bool)) :=
  match transformation with
  | Some apply =>
      let* (_, predictionMatrix) := dispatch (predictForExample apply m (rlUsedBegin model maxRules) (rlUsedEnd model maxRules))
        order (realMemory, memory) in
      Some predictionMatrix
  | None => Some (repeat (repeat false numLabels) (fmRows m))
  end.

(** predictor_binary_common.hpp, lines 358-373. [u]: the content of memory that is allocated for the resulting matrix. *)
Definition predictBinarySparse (transformation : option (list V -> list nat -> option (list nat))) (m : featureMatrix)
    (model : ruleList (rule V)) (maxRules : nat) (order : list (nat * nat)) (realMemory : list (list V)) (u : nat)
    : option (list nat * list nat) :=
  let predictionMatrix := repeat [] (fmRows m) in
  let* (predictionMatrix, numDenseElements) :=
    match transformation with
    | Some apply =>
        let* (_, predictionMatrix, numDenseElements) :=
          dispatchSparse (predictForExample apply m (rlUsedBegin model maxRules) (rlUsedEnd model maxRules)) order
            (realMemory, predictionMatrix) in
        Some (predictionMatrix, numDenseElements)
    | None => Some (predictionMatrix, 0%N)
    end in
  lilToCsr (repeat u (N.to_nat numDenseElements)) (repeat u (length predictionMatrix + 1)) predictionMatrix (N.to_nat numDenseElements).

(** ** Incremental predictors *)

(** predictor_common.hpp, lines 191-197; predictor_binary_common.hpp, lines 65-69 and 250-256. *)
Record incrementalPredictor (P : Type) : Type := mkIncremental {
  ipCurrent : rlIter (rule V); ipEnd : rlIter (rule V); ipReal : list (list V); ipPredictions : list P }.
Arguments mkIncremental {P}. Arguments ipCurrent {P}. Arguments ipEnd {P}. Arguments ipReal {P}. Arguments ipPredictions {P}.

(** predictor_common.hpp, lines 231-234; predictor_binary_common.hpp, lines 89-98. [memory]: see above. *)
Definition createIncremental {T} (transformation : option T) (m : featureMatrix) (model : ruleList (rule V))
    (numLabels maxRules : nat) (realMemory : list (list V)) (memory : list (list bool)) : incrementalPredictor (list bool) :=
  mkIncremental (rlUsedBegin model maxRules) (rlUsedEnd model maxRules)
    (match transformation with Some _ => repeat (repeat zero numLabels) (fmRows m) | None => realMemory end)
    (match transformation with Some _ => memory | None => repeat (repeat false numLabels) (fmRows m) end).

(** predictor_common.hpp, lines 231-234; predictor_binary_common.hpp, lines 282-289. *)
Definition createIncrementalSparse {T} (transformation : option T) (m : featureMatrix) (model : ruleList (rule V))
    (numLabels maxRules : nat) (realMemory : list (list V)) : incrementalPredictor (list nat) :=
  mkIncremental (rlUsedBegin model maxRules) (rlUsedEnd model maxRules)
    (match transformation with Some _ => repeat (repeat zero numLabels) (fmRows m) | None => realMemory end)
    (repeat [] (fmRows m)).

(** predictor_common.hpp, lines 238-240. *)
Definition getNumNext {P} (p : incrementalPredictor P) : nat := itDiff (ipEnd p) (ipCurrent p).

(** predictor_common.hpp, lines 242-248; predictor_binary_common.hpp, lines 73-85. *)
Definition applyNext (transformation : option (list V -> list bool -> option (list bool))) (m : featureMatrix) (stepSize : nat)
    (order : list (nat * nat)) (p : incrementalPredictor (list bool)) : option (incrementalPredictor (list bool)) :=
  let next := itAdvance (ipCurrent p) (Nat.min stepSize (getNumNext p)) in
  match transformation with
  | Some apply =>
      let* (real, predictions) := dispatch (fun _ => incrementForExample apply (fun row => row) m (ipCurrent p) next) order
        (ipReal p, ipPredictions p) in
      Some (mkIncremental next (ipEnd p) real predictions)
  | None => Some (mkIncremental next (ipEnd p) (ipReal p) (ipPredictions p))
  end.

(** predictor_common.hpp, lines 242-248; predictor_binary_common.hpp, lines 260-278. *)
Definition applyNextSparse (transformation : option (list V -> list nat -> option (list nat))) (m : featureMatrix) (stepSize : nat)
    (order : list (nat * nat)) (u : nat) (p : incrementalPredictor (list nat))
    : option (incrementalPredictor (list nat) * (list nat * list nat)) :=
  let next := itAdvance (ipCurrent p) (Nat.min stepSize (getNumNext p)) in
  let* (real, predictions, numDenseElements) :=
    match transformation with
    | Some apply =>
        dispatchSparse (fun _ => incrementForExample apply (fun _ => []) m (ipCurrent p) next) order (ipReal p, ipPredictions p)
    | None => Some (ipReal p, ipPredictions p, 0%N)
    end in
  let* matrix := lilToCsr (repeat u (N.to_nat numDenseElements)) (repeat u (length predictions + 1)) predictions (N.to_nat numDenseElements) in
  Some (mkIncremental next (ipEnd p) real predictions, matrix).

(** A sequence of steps, each one with its size and the order in which the examples are processed. The matrices that are
    returned by the individual steps. *)
Fixpoint applyAll (transformation : option (list V -> list bool -> option (list bool))) (m : featureMatrix)
    (steps : list (nat * list (nat * nat))) (p : incrementalPredictor (list bool)) : option (list (list (list bool))) :=
  match steps with
  | [] => Some []
  | (stepSize, order) :: steps =>
      let* p := applyNext transformation m stepSize order p in
      let* matrices := applyAll transformation m steps p in
      Some (ipPredictions p :: matrices)
  end.
Fixpoint applyAllSparse (transformation : option (list V -> list nat -> option (list nat))) (m : featureMatrix) (u : nat)
    (steps : list (nat * list (nat * nat))) (p : incrementalPredictor (list nat)) : option (list (list nat * list nat)) :=
  match steps with
  | [] => Some []
  | (stepSize, order) :: steps =>
      let* (p, matrix) := applyNextSparse transformation m stepSize order u p in
      let* matrices := applyAllSparse transformation m u steps p in
      Some (matrix :: matrices)
  end.

End Predictors.
Arguments incrementalPredictor : clear implicits.
Arguments mkIncremental {V P}. Arguments ipCurrent {V P}. Arguments ipEnd {V P}. Arguments ipReal {V P}. Arguments ipPredictions {V P}.

(** ** Transformation into probabilities *)

(** Memory that stores matrices of [float64]. [loadRow] and [storeRow] access consecutive cells. *)
Definition loadRow (memory : list Q) (start count : nat) : option (list Q) :=
  if start + count <=? length memory then Some (firstn count (skipn start memory)) else None.
Definition storeRow (memory : list Q) (start : nat) (row : list Q) : option (list Q) :=
  forN (length row) 0 (fun i memory => let* value := aget row i in aset memory (start + i) value) memory.

(** src/mlrl/boosting/prediction/transformation_probability_output_wise.cpp, lines 9-20. [scoresBegin], [probabilitiesBegin]:
    addresses, which may be equal. *)
Definition applyOutputWiseProbability (transformScore : nat -> Q -> Q) (numScores scoresBegin probabilitiesBegin : nat)
    (memory : list Q) : option (list Q) :=
  forN numScores 0 (fun i memory =>
    let* score := aget memory (scoresBegin + i) in
    let probability := transformScore i score in
    aset memory (probabilitiesBegin + i) probability) memory.

(** src/mlrl/boosting/prediction/transformation_probability_marginalized.cpp, lines 9-32. [joint]:
    [transformScoresIntoJointProbability], [jointMemory]: the initial content of the vector of joint probabilities. *)
Definition applyMarginalizedProbability (joint : nat -> list nat -> list Q -> option Q) (labelVectors : list (list nat))
    (jointMemory : list Q) (numLabels scoresBegin probabilitiesBegin : nat) (memory : list Q) : option (list Q) :=
  let* scores := loadRow memory scoresBegin numLabels in
  let* jointProbabilities := transformScoresIntoJointProbabilities (fun i labelVector => joint i labelVector scores) labelVectors jointMemory in
  let* memory := forN numLabels 0 (fun i memory => aset memory (probabilitiesBegin + i) 0%Q) memory in
  forN (length labelVectors) 0 (fun i memory =>
    let* labelVector := aget labelVectors i in
    let* jointProbability := aget jointProbabilities i in
    forN (length labelVector) 0 (fun j memory =>
      let* labelIndex := aget labelVector j in
      let* probability := aget memory (probabilitiesBegin + labelIndex) in
      aset memory (probabilitiesBegin + labelIndex) (probability + jointProbability)%Q) memory) memory.

(** ** Predictors of probabilities *)

Section Probabilities.
Context (add : Q -> Q -> Q) (junk : fval).

(** include/mlrl/boosting/prediction/predictor_probability_common.hpp, lines 47-58. [scoreMatrix], [predictionMatrix]: the
    addresses of the matrices, [apply]: [IProbabilityTransformation::apply]. *)
Definition predictProbabilitiesForExample (apply : nat -> nat -> list Q -> option (list Q)) (numLabels scoreMatrix predictionMatrix : nat)
    (m : featureMatrix) (rulesBegin rulesEnd : rlIter (rule Q)) (exampleIndex : nat) (memory : list Q) : option (list Q) :=
  let* row := loadRow memory (scoreMatrix + exampleIndex * numLabels) numLabels in
  let* row := aggregateScores add junk m rulesBegin rulesEnd exampleIndex row in
  let* memory := storeRow memory (scoreMatrix + exampleIndex * numLabels) row in
  apply (scoreMatrix + exampleIndex * numLabels) (predictionMatrix + exampleIndex * numLabels) memory.

(** predictor_probability_common.hpp, lines 136-149: the same matrix stores scores and probabilities. *)
Definition predictProbabilities (transformation : option (nat -> nat -> list Q -> option (list Q))) (m : featureMatrix)
    (model : ruleList (rule Q)) (numLabels maxRules : nat) (order : list nat) : option (list Q) :=
  let memory := repeat 0%Q (fmRows m * numLabels) in
  match transformation with
  | Some apply =>
      forL order (predictProbabilitiesForExample apply numLabels 0 0 m (rlUsedBegin model maxRules) (rlUsedEnd model maxRules)) memory
  | None => Some memory
  end.

(** predictor_common.hpp, lines 191-197; predictor_probability_common.hpp, lines 67-71. [ppMemory]: the score matrix, followed by
    the prediction matrix. *)
Record probabilityPredictor : Type := mkProbabilityPredictor {
  ppCurrent : rlIter (rule Q); ppEnd : rlIter (rule Q); ppMemory : list Q }.

(** predictor_probability_common.hpp, lines 89-97. [uninitialized]: the initial content of the matrix that is not set to zero. *)
Definition createProbabilityPredictor {T} (transformation : option T) (m : featureMatrix) (model : ruleList (rule Q))
    (numLabels maxRules : nat) (uninitialized : list Q) : probabilityPredictor :=
  mkProbabilityPredictor (rlUsedBegin model maxRules) (rlUsedEnd model maxRules)
    (match transformation with
     | Some _ => repeat 0%Q (fmRows m * numLabels) ++ uninitialized
     | None => uninitialized ++ repeat 0%Q (fmRows m * numLabels)
     end).

(** predictor_common.hpp, lines 242-248; predictor_probability_common.hpp, lines 73-85. *)
Definition applyNextProbabilities (transformation : option (nat -> nat -> list Q -> option (list Q))) (m : featureMatrix)
    (numLabels stepSize : nat) (order : list nat) (p : probabilityPredictor) : option probabilityPredictor :=
  let next := itAdvance (ppCurrent p) (Nat.min stepSize (itDiff (ppEnd p) (ppCurrent p))) in
  match transformation with
  | Some apply =>
      let* memory := forL order (predictProbabilitiesForExample apply numLabels 0 (fmRows m * numLabels) m (ppCurrent p) next) (ppMemory p) in
      Some (mkProbabilityPredictor next (ppEnd p) memory)
  | None => Some (mkProbabilityPredictor next (ppEnd p) (ppMemory p))
  end.

(** The content of the prediction matrix, which is returned. *)
Definition getProbabilities (m : featureMatrix) (numLabels : nat) (p : probabilityPredictor) : list Q :=
  skipn (fmRows m * numLabels) (ppMemory p).

(** A sequence of steps, see above. *)
Fixpoint applyAllProbabilities (transformation : option (nat -> nat -> list Q -> option (list Q))) (m : featureMatrix)
    (numLabels : nat) (steps : list (nat * list nat)) (p : probabilityPredictor) : option (list (list Q)) :=
  match steps with
  | [] => Some []
  | (stepSize, order) :: steps =>
      let* p := applyNextProbabilities transformation m numLabels stepSize order p in
      let* matrices := applyAllProbabilities transformation m numLabels steps p in
      Some (getProbabilities m numLabels p :: matrices)
  end.

End Probabilities.
