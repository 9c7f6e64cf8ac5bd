(** Model of how the individual steps of training a classification model work together.

    Sources (below /repo/cpp/subprojects):
    - common/include/mlrl/common/learner_classification_common.hpp, lines 31-123 (the function [fit])
    - common/include/mlrl/common/learner_common.hpp, lines 357-391
    - common/src/mlrl/common/sampling/instance_sampling_no.cpp and weight_vector_{bit,equal}.cpp
    - common/src/mlrl/common/rule_refinement/feature_space_tabular.cpp, lines 8-25 and 244-256
    - boosting/src/mlrl/boosting/sampling/partition_sampling_auto.cpp
    - boosting/src/mlrl/boosting/prediction/predictor_{binary,probability,score}_*.cpp and
      probability_calibration_isotonic.cpp (which components are created, depending on the configuration) *)
From Coq Require Import ZArith Arith List Bool.
From Verif Require Import Lib.Arr Model.Refinement Model.Induction Model.Rules Model.Stopping Model.BoostConfig.
Import ListNotations.
Open Scope nat_scope.

(** ** From the induction of rules to the calibration of probabilities *)

Section Train.
(** [X]: everything that changes during training except for the predictions, e.g., random number generators; [C]: the
    state of the stopping criteria. [test]: the stopping criteria. [learn]: learns a new rule, given the current
    predictions; it returns the rule and the coverage mask of the examples its predictions are applied to.
    [relearn]: the same in case of post-optimization. *)
Context {X C : Type}
        (test : list Z * X -> nat -> C -> option (result * C))
        (learn : list Z -> X -> option (srule * list bool) * X)
        (relearn : nat -> list Z -> srule -> option (srule * list bool)).

(** rule_induction_common.hpp, lines 103-143: the predictions of a new rule are applied (line 133), before it is added to
    the model (line 136). *)
Definition induceStep (t : list Z * X) : option srule * (list Z * X) :=
  let '(predictions, x) := t in
  match learn predictions x with
  | (Some (rule, mask), x) => (Some rule, (addScore mask (snd rule) predictions, x))
  | (None, x) => (None, (predictions, x))
  end.

(** rule_induction_common.hpp, lines 77-101: the default rule is applied to all examples. Initially, all predictions are
    zero. *)
Definition initialPredictions (numExamples : nat) (default : option Z) : list Z :=
  addScore (fullMask numExamples) (match default with Some score => score | None => 0%Z end) (repeat 0%Z numExamples).

(** learner_common.hpp, lines 357-372, and post_optimization_phase_list.cpp, lines 39-46: unused rules are removed first
    (if [removeUnused]), then sequential post-optimization follows (if [sequential], with the given number of
    iterations). post_optimization_sequential.cpp leaves the default rule and the number of used rules as they are. *)
Definition postOptimize (numExamples : nat) (removeUnused : bool) (sequential : option nat)
    (b : builder srule) (predictions : list Z) : option (builder srule * list Z) :=
  let* b := (if removeUnused then removeUnusedRules b else Some b) in
  match sequential with
  | None => Some (b, predictions)
  | Some numIterations =>
      let* (rules, predictions, _) := optimizeModel numExamples numIterations relearn (bRules b) predictions in
      Some (mkBuilder (bDefault b) rules (bNumUsed b), predictions)
  end.

(** learner_classification_common.hpp, lines 86-122. Returns the model and the scores to which the calibration models are
    fitted (lines 101-118), which are those stored by the statistics. [None]: undefined behaviour; [Some None]: out of
    fuel. *)
Definition fit (fuel numExamples : nat) (default : option Z) (removeUnused : bool) (sequential : option nat)
    (x : X) (c : C) : option (option (ruleList srule * list Z)) :=
  let defaultRule := match default with Some score => Some ([], score) | None => None end in
  let* res := induceRules test induceStep fuel defaultRule (initialPredictions numExamples default, x) c bEmpty in
  match res with
  | None => Some None
  | Some (b, (predictions, _)) =>
      let* (b, predictions) := postOptimize numExamples removeUnused sequential b predictions in
      Some (Some (bBuild true b, predictions))
  end.
End Train.

(** ** Rule pruning without instance sampling *)

(** partition_bi.cpp, lines 48-54, and partition_single.cpp, lines 20-22: the total number of examples. *)
Definition partitionSize (p : partition) : nat :=
  match p with Single indices => length indices | Bi first second => length first + length second end.

(** instance_sampling_no.cpp, lines 8-53: the weights of all examples (whether they are non-zero) and the number of
    non-zero weights. A single partition results in an [EqualWeightVector], all of whose weights are one. *)
Definition noInstanceSampling (p : partition) : option (list bool * nat) :=
  match p with
  | Single indices => Some (repeat true (partitionSize p), partitionSize p)
  | Bi first _ =>
      let* weights := forL first (fun index weights => aset weights index true) (repeat false (partitionSize p)) in
      Some (weights, length first)
  end.

(** weight_vector_bit.cpp, lines 20-22; weight_vector_equal.cpp, lines 20-22, agrees if the number of non-zero weights is
    the number of elements. *)
Definition hasZeroWeights (w : list bool * nat) : bool := snd w <? length (fst w).

(** feature_space_tabular.cpp, lines 8-25, 244-256: the examples with zero weight that are covered. Example indices are
    always within the bounds of weights and mask. *)
Definition outOfSample (p : partition) (weights mask : list bool) : list nat :=
  let indices := match p with Single indices => indices | Bi first _ => first end in
  filter (fun exampleIndex => negb (nth exampleIndex weights false) && nth exampleIndex mask false) indices.

(** rule_induction_common.hpp, lines 103-136, without instance sampling, for a rule with the given conditions and coverage
    mask. [quality]: the quality of the rule's predictions for the given examples (line 24). Returns the conditions of the
    rule that is added to the model. *)
Definition pruneWithoutSampling (k : learner) (pruning recalculate : bool) (quality : list nat -> Z) (p : partition)
    (conditions : list cond) (mask : list bool) : option (list cond) :=
  let* w := noInstanceSampling p in
  let* (conditions', _, _) :=
    induceRule k pruning recalculate (hasZeroWeights w) (fun mask => quality (outOfSample p (fst w) mask)) conditions
      mask in
  Some conditions'.

(** ** Components that need label vectors or a holdout set *)

(** The values of the corresponding parameters. The flags [b] of predictors: [basedOnProbabilities_]; of other
    components: [useHoldoutSet_]. *)
Inductive binaryPredictor : Type :=
  | BinaryNone | BinaryAuto | BinaryOutputWise (b : bool) | BinaryExampleWise (b : bool) | BinaryGfm.
Inductive probabilityPredictor : Type := ProbabilityNone | ProbabilityAuto | ProbabilityOutputWise | Marginalized.
Inductive scorePredictor : Type := ScoreNone | ScoreOutputWise.
Inductive calibrator : Type := NoCalibrator | Isotonic (b : bool).
Inductive globalPruning : Type := NoGlobalPruning | PostPruning (b : bool) | PrePruning (b : bool).

(** The part of the configuration that matters here. *)
Record learnerConfig : Type := mkLearnerConfig {
  lcLoss : loss;
  lcBinary : binaryPredictor;
  lcScore : scorePredictor;
  lcProbability : probabilityPredictor;
  lcMarginal : calibrator;
  lcJoint : calibrator;
  lcPruning : globalPruning }.

(** [createMarginalProbabilityFunctionFactory] and [createJointProbabilityFunctionFactory] (e.g.,
    loss_decomposable_logistic.cpp, lines 99-107, loss_decomposable_squared_error.cpp, lines 77-85): whether they return an
    object. Both do for the same losses. *)
Definition hasProbabilityFunctions (l : loss) : bool :=
  match l with
  | DecomposableLogistic | NonDecomposableLogistic => true
  | DecomposableSquaredError | DecomposableSquaredHinge
  | NonDecomposableSquaredError | NonDecomposableSquaredHinge => false
  end.

(** What is created from a configuration: an object, [nullptr], if the kind of predictions is not supported, or nothing
    as an exception is thrown. *)
Inductive outcome : Type := Created | Unsupported | Throws.

(** predictor_binary_example_wise.cpp, lines 9-29: label vectors must be given when a predictor is created. The same
    applies to predictor_binary_gfm.cpp, lines 9-32, predictor_probability_marginalized.cpp, lines 9-33, and
    probability_calibration_isotonic.cpp, lines 630-644. *)
Definition requireLabelVectors (labelVectors : bool) : outcome := if labelVectors then Created else Throws.

(** predictor_binary_no.cpp, predictor_binary_auto.cpp, lines 13-22, predictor_binary_output_wise.cpp, lines 159-217,
    predictor_binary_example_wise.cpp, lines 219-226 and 256-270, predictor_binary_gfm.cpp, lines 241-255. Sparse
    predictors are created in the same way. *)
Definition createBinaryPredictor (l : loss) (labelVectors : bool) (p : binaryPredictor) : outcome :=
  let outputWise b := if b && negb (hasProbabilityFunctions l) then Unsupported else Created in
  let exampleWise b :=
    if b && negb (hasProbabilityFunctions l) then Unsupported else requireLabelVectors labelVectors in
  match p with
  | BinaryNone => Unsupported
  | BinaryAuto => if isDecomposable l then outputWise false else exampleWise false
  | BinaryOutputWise b => outputWise b
  | BinaryExampleWise b => exampleWise b
  | BinaryGfm => if hasProbabilityFunctions l then requireLabelVectors labelVectors else Unsupported
  end.

(** predictor_binary_no.cpp, lines 13-15, predictor_binary_auto.cpp, lines 35-41, predictor_binary_output_wise.cpp, lines
    235-237, predictor_binary_example_wise.cpp, lines 288-290, predictor_binary_gfm.cpp, lines 273-275. *)
Definition binaryNeedsLabelVectors (l : loss) (p : binaryPredictor) : bool :=
  match p with
  | BinaryNone => false
  | BinaryAuto => negb (isDecomposable l)
  | BinaryOutputWise _ => false
  | BinaryExampleWise _ => true
  | BinaryGfm => true
  end.

(** predictor_probability_no.cpp, predictor_probability_auto.cpp, lines 13-22, predictor_probability_output_wise.cpp, lines
    96-110, predictor_probability_marginalized.cpp, lines 132-146. *)
Definition createProbabilityPredictor (l : loss) (labelVectors : bool) (p : probabilityPredictor) : outcome :=
  let outputWise := if hasProbabilityFunctions l then Created else Unsupported in
  let marginalized := if hasProbabilityFunctions l then requireLabelVectors labelVectors else Unsupported in
  match p with
  | ProbabilityNone => Unsupported
  | ProbabilityAuto => if isDecomposable l then outputWise else marginalized
  | ProbabilityOutputWise => outputWise
  | Marginalized => marginalized
  end.

(** predictor_probability_no.cpp, lines 8-10, predictor_probability_auto.cpp, lines 24-30,
    predictor_probability_output_wise.cpp, lines 112-114, predictor_probability_marginalized.cpp, lines 148-150. *)
Definition probabilityNeedsLabelVectors (l : loss) (p : probabilityPredictor) : bool :=
  match p with
  | ProbabilityNone => false
  | ProbabilityAuto => negb (isDecomposable l)
  | ProbabilityOutputWise => false
  | Marginalized => true
  end.

(** predictor_score_no.cpp, predictor_score_output_wise.cpp, lines 50-59. *)
Definition createScorePredictor (labelVectors : bool) (p : scorePredictor) : outcome :=
  match p with ScoreNone => Unsupported | ScoreOutputWise => Created end.
(** See above (predictor_score_output_wise.cpp, lines 50-59). *)
Definition scoreNeedsLabelVectors (p : scorePredictor) : bool :=
  match p with ScoreNone => false | ScoreOutputWise => false end.

(** probability_calibration_isotonic.cpp, lines 322-333 and 669-680: without probability functions, no calibrator is
    used. *)
Definition createCalibratorFactory (l : loss) (c : calibrator) : calibrator :=
  match c with
  | NoCalibrator => NoCalibrator
  | Isotonic b => if hasProbabilityFunctions l then Isotonic b else NoCalibrator
  end.

(** probability_calibration_isotonic.cpp, lines 630-644, probability_calibration_no.cpp. *)
Definition createJointCalibrator (l : loss) (labelVectors : bool) (c : calibrator) : outcome :=
  match createCalibratorFactory l c with
  | NoCalibrator => Created
  | Isotonic _ => requireLabelVectors labelVectors
  end.

(** probability_calibration_no.cpp, lines 103-105, probability_calibration_isotonic.cpp, lines 665-667. *)
Definition jointNeedsLabelVectors (c : calibrator) : bool :=
  match c with NoCalibrator => false | Isotonic _ => true end.

(** learner_common.hpp, lines 382-391: whether the label vectors in the training data are stored. *)
Definition labelVectorsStored (c : learnerConfig) : bool :=
  binaryNeedsLabelVectors (lcLoss c) (lcBinary c) || scoreNeedsLabelVectors (lcScore c)
  || probabilityNeedsLabelVectors (lcLoss c) (lcProbability c) || jointNeedsLabelVectors (lcJoint c).

(** probability_calibration_no.cpp, lines 53-55 and 99-101, probability_calibration_isotonic.cpp, lines 318-320 and
    661-663. *)
Definition calibratorShouldUseHoldoutSet (c : calibrator) : bool :=
  match c with NoCalibrator => false | Isotonic b => b end.

(** global_pruning_no.cpp, lines 7-9, global_pruning_post.cpp, lines 141-143, global_pruning_pre.cpp, lines 294-296. *)
Definition pruningShouldUseHoldoutSet (p : globalPruning) : bool :=
  match p with NoGlobalPruning => false | PostPruning b => b | PrePruning b => b end.

(** partition_sampling_auto.cpp, lines 9-34: whether a holdout set is created. *)
Definition autoHoldoutSet (c : learnerConfig) : bool :=
  pruningShouldUseHoldoutSet (lcPruning c) || calibratorShouldUseHoldoutSet (lcMarginal c)
  || calibratorShouldUseHoldoutSet (lcJoint c).
