(** The configuration of the rule learners, i.e., which components are set by the methods that are available to users, which
    components depend on each other, and which components are accessed for training and for predicting. The parameters of components
    are only considered as far as their default values are concerned. Methods for setting them are subject to [Parameters]. *)
From Coq Require Import QArith Bool List.
Import ListNotations.
Open Scope nat_scope.

(** The pointers to components that are stored by a configuration.
    common/include/mlrl/common/learner_common.hpp 492-626; boosting/include/mlrl/boosting/learner_common.hpp 76-120;
    seco/include/mlrl/seco/learner_common.hpp 89-116. *)
Inductive slot :=
| RNGSlot | DefaultRuleSlot | RuleModelAssemblageSlot | RuleInductionSlot | RuleRefinementSlot | FeatureBinningSlot
| OutputSamplingSlot | ClassificationInstanceSamplingSlot | RegressionInstanceSamplingSlot | FeatureSamplingSlot
| ClassificationPartitionSamplingSlot | RegressionPartitionSamplingSlot | RulePruningSlot | PostProcessorSlot
| ParallelRuleRefinementSlot | ParallelStatisticUpdateSlot | ParallelPredictionSlot | SizeStoppingCriterionSlot
| TimeStoppingCriterionSlot | GlobalPruningSlot | SequentialPostOptimizationSlot | UnusedRuleRemovalSlot
| MarginalProbabilityCalibratorSlot | JointProbabilityCalibratorSlot | ScorePredictorSlot | ProbabilityPredictorSlot
| BinaryPredictorSlot | HeadSlot | ClassificationStatisticsSlot | RegressionStatisticsSlot | ClassificationLossSlot
| RegressionLossSlot | L1Slot | L2Slot | LabelBinningSlot | CoverageStoppingCriterionSlot | HeuristicSlot | PruningHeuristicSlot
| LiftFunctionSlot.

Scheme Equality for slot.

(** The components that may be set, one for each class that is created by the methods [use...] (see [assignments] for files and lines). *)
Inductive component :=
| RNGConfig | DefaultRuleConfig (useDefaultRule : bool) | AutomaticDefaultRuleConfig | SequentialRuleModelAssemblageConfig
| GreedyTopDownRuleInductionConfig | BeamSearchTopDownRuleInductionConfig | StatisticsBasedRuleRefinementConfig
| NoFeatureBinningConfig | EqualWidthFeatureBinningConfig | EqualFrequencyFeatureBinningConfig | AutomaticFeatureBinningConfig
| NoOutputSamplingConfig | OutputSamplingWithoutReplacementConfig | RoundRobinOutputSamplingConfig
| NoInstanceSamplingConfig | InstanceSamplingWithReplacementConfig | InstanceSamplingWithoutReplacementConfig
| OutputWiseStratifiedInstanceSamplingConfig | ExampleWiseStratifiedInstanceSamplingConfig
| NoFeatureSamplingConfig | FeatureSamplingWithoutReplacementConfig
| NoPartitionSamplingConfig | RandomBiPartitionSamplingConfig | OutputWiseStratifiedBiPartitionSamplingConfig
| ExampleWiseStratifiedBiPartitionSamplingConfig | AutomaticPartitionSamplingConfig
| NoRulePruningConfig | IrepConfig | NoPostProcessorConfig | ConstantShrinkageConfig
| NoMultiThreadingConfig | ManualMultiThreadingConfig | AutoParallelRuleRefinementConfig | AutoParallelStatisticUpdateConfig
| NoStoppingCriterionConfig | SizeStoppingCriterionConfig | TimeStoppingCriterionConfig | CoverageStoppingCriterionConfig
| NoGlobalPruningConfig | PrePruningConfig | PostPruningConfig
| NoPostOptimizationPhaseConfig | SequentialPostOptimizationConfig | UnusedRuleRemovalConfig
| NoMarginalProbabilityCalibratorConfig | IsotonicMarginalProbabilityCalibratorConfig
| NoJointProbabilityCalibratorConfig | IsotonicJointProbabilityCalibratorConfig
| NoScorePredictorConfig | OutputWiseScorePredictorConfig
| NoProbabilityPredictorConfig | OutputWiseProbabilityPredictorConfig | MarginalizedProbabilityPredictorConfig
| AutomaticProbabilityPredictorConfig
| NoBinaryPredictorConfig | OutputWiseBinaryPredictorConfig | ExampleWiseBinaryPredictorConfig | GfmBinaryPredictorConfig
| AutomaticBinaryPredictorConfig | SecoOutputWiseBinaryPredictorConfig
| CompleteHeadConfig | FixedPartialHeadConfig | DynamicPartialHeadConfig | SingleOutputHeadConfig | AutomaticHeadConfig
| SecoSingleOutputHeadConfig | SecoPartialHeadConfig
| DenseStatisticsConfig | SparseStatisticsConfig | AutomaticStatisticsConfig
| DecomposableLogisticLossConfig | DecomposableSquaredErrorLossConfig | DecomposableSquaredHingeLossConfig
| NonDecomposableLogisticLossConfig | NonDecomposableSquaredErrorLossConfig | NonDecomposableSquaredHingeLossConfig
| NoRegularizationConfig | ManualRegularizationConfig
| NoLabelBinningConfig | EqualWidthLabelBinningConfig | AutomaticLabelBinningConfig
| AccuracyConfig | FMeasureConfig | MEstimateConfig | LaplaceConfig | PrecisionConfig | RecallConfig | WraConfig
| NoLiftFunctionConfig | PeakLiftFunctionConfig | KlnLiftFunctionConfig.

(** The methods for configuring a rule learner that set the components above. Methods that merely differ in the component to be set
    for the same pointers are represented by the same constructor, e.g., [useHeuristic AccuracyConfig] is
    [useAccuracyHeuristic()]. Which components are valid arguments is determined by [available].
    common/include/mlrl/common/learner.hpp 423-1248; common/include/mlrl/common/learner_classification.hpp 336-418;
    boosting/include/mlrl/boosting/learner.hpp 147-591; boosting/include/mlrl/boosting/learner_classification.hpp 41-368;
    seco/include/mlrl/seco/learner.hpp 100-512. *)
Inductive call :=
| useRNG
| useSequentialRuleModelAssemblage
| useDefaultRule (c : component)
| useRuleInduction (c : component)
| usePostProcessor (c : component)
| useFeatureBinning (c : component)
| useOutputSampling (c : component)
| useInstanceSampling (c : component)
| useStratifiedInstanceSampling (c : component)
| useFeatureSampling (c : component)
| usePartitionSampling (c : component)
| useStratifiedBiPartitionSampling (c : component)
| useRulePruning (c : component)
| useParallelRuleRefinement (c : component)
| useNoParallelStatisticAggregation
| useParallelStatisticUpdate (c : component)
| useParallelPrediction (c : component)
| useSizeStoppingCriterion (c : component)
| useTimeStoppingCriterion (c : component)
| useGlobalPruning (c : component)
| useSequentialPostOptimization (c : component)
| useMarginalProbabilityCalibration (c : component)
| useJointProbabilityCalibration (c : component)
| useScorePredictor (c : component)
| useProbabilityPredictor (c : component)
| useBinaryPredictor (c : component)
| useHeads (c : component)
| useStatistics (c : component)
| useLoss (c : component)
| useClassificationLoss (c : component)
| useL1Regularization (c : component)
| useL2Regularization (c : component)
| useLabelBinning (c : component)
| useCoverageStoppingCriterion (c : component)
| useHeuristic (c : component)
| usePruningHeuristic (c : component)
| useLiftFunction (c : component).

(** The pointers that are set by a method, in order. The loss functions that are only available to classifiers reset the loss function
    to be used by regressors to a null pointer. Stratified sampling methods do not affect the sampling method to be used by
    regressors. The methods are found in common/include/mlrl/common/learner.hpp 423-1276, learner_classification.hpp 336-420,
    boosting/include/mlrl/boosting/learner.hpp 147-605, learner_classification.hpp 41-370, seco/include/mlrl/seco/learner.hpp 100-525. *)
Definition assignments (f : call) : list (slot * option component) :=
  match f with
  | useRNG => [(RNGSlot, Some RNGConfig)]
  | useSequentialRuleModelAssemblage => [(RuleModelAssemblageSlot, Some SequentialRuleModelAssemblageConfig)]
  | useDefaultRule c => [(DefaultRuleSlot, Some c)]
  | useRuleInduction c => [(RuleInductionSlot, Some c)]
  | usePostProcessor c => [(PostProcessorSlot, Some c)]
  | useFeatureBinning c => [(FeatureBinningSlot, Some c)]
  | useOutputSampling c => [(OutputSamplingSlot, Some c)]
  | useInstanceSampling c => [(ClassificationInstanceSamplingSlot, Some c); (RegressionInstanceSamplingSlot, Some c)]
  | useStratifiedInstanceSampling c => [(ClassificationInstanceSamplingSlot, Some c)]
  | useFeatureSampling c => [(FeatureSamplingSlot, Some c)]
  | usePartitionSampling c => [(ClassificationPartitionSamplingSlot, Some c); (RegressionPartitionSamplingSlot, Some c)]
  | useStratifiedBiPartitionSampling c => [(ClassificationPartitionSamplingSlot, Some c)]
  | useRulePruning c => [(RulePruningSlot, Some c)]
  | useParallelRuleRefinement c => [(ParallelRuleRefinementSlot, Some c)]
  | useNoParallelStatisticAggregation => [(RuleRefinementSlot, Some StatisticsBasedRuleRefinementConfig)]
  | useParallelStatisticUpdate c => [(ParallelStatisticUpdateSlot, Some c)]
  | useParallelPrediction c => [(ParallelPredictionSlot, Some c)]
  | useSizeStoppingCriterion c => [(SizeStoppingCriterionSlot, Some c)]
  | useTimeStoppingCriterion c => [(TimeStoppingCriterionSlot, Some c)]
  | useGlobalPruning c => [(GlobalPruningSlot, Some c)]
  | useSequentialPostOptimization c => [(SequentialPostOptimizationSlot, Some c)]
  | useMarginalProbabilityCalibration c => [(MarginalProbabilityCalibratorSlot, Some c)]
  | useJointProbabilityCalibration c => [(JointProbabilityCalibratorSlot, Some c)]
  | useScorePredictor c => [(ScorePredictorSlot, Some c)]
  | useProbabilityPredictor c => [(ProbabilityPredictorSlot, Some c)]
  | useBinaryPredictor c => [(BinaryPredictorSlot, Some c)]
  | useHeads c => [(HeadSlot, Some c)]
  | useStatistics c => [(ClassificationStatisticsSlot, Some c); (RegressionStatisticsSlot, Some c)]
  | useLoss c => [(ClassificationLossSlot, Some c); (RegressionLossSlot, Some c)]
  | useClassificationLoss c => [(ClassificationLossSlot, Some c); (RegressionLossSlot, None)]
  | useL1Regularization c => [(L1Slot, Some c)]
  | useL2Regularization c => [(L2Slot, Some c)]
  | useLabelBinning c => [(LabelBinningSlot, Some c)]
  | useCoverageStoppingCriterion c => [(CoverageStoppingCriterionSlot, Some c)]
  | useHeuristic c => [(HeuristicSlot, Some c)]
  | usePruningHeuristic c => [(PruningHeuristicSlot, Some c)]
  | useLiftFunction c => [(LiftFunctionSlot, Some c)]
  end.

(** The component that is created by a method. *)
Definition created (f : call) : component :=
  match f with
  | useRNG => RNGConfig
  | useSequentialRuleModelAssemblage => SequentialRuleModelAssemblageConfig
  | useNoParallelStatisticAggregation => StatisticsBasedRuleRefinementConfig
  | useDefaultRule c | useRuleInduction c | usePostProcessor c | useFeatureBinning c | useOutputSampling c
  | useInstanceSampling c | useStratifiedInstanceSampling c | useFeatureSampling c | usePartitionSampling c
  | useStratifiedBiPartitionSampling c | useRulePruning c | useParallelRuleRefinement c | useParallelStatisticUpdate c
  | useParallelPrediction c | useSizeStoppingCriterion c | useTimeStoppingCriterion c | useGlobalPruning c
  | useSequentialPostOptimization c | useMarginalProbabilityCalibration c | useJointProbabilityCalibration c
  | useScorePredictor c | useProbabilityPredictor c | useBinaryPredictor c | useHeads c | useStatistics c | useLoss c
  | useClassificationLoss c | useL1Regularization c | useL2Regularization c | useLabelBinning c
  | useCoverageStoppingCriterion c | useHeuristic c | usePruningHeuristic c | useLiftFunction c => c
  end.

(** The three rule learners. *)
Inductive learner := BoomerClassifier | BoomerRegressor | SeCoClassifier.

Definition isBoosting (l : learner) : bool := match l with SeCoClassifier => false | _ => true end.

Definition isClassifier (l : learner) : bool := match l with BoomerRegressor => false | _ => true end.

Definition isHeuristic (c : component) : bool :=
  match c with
  | AccuracyConfig | FMeasureConfig | MEstimateConfig | LaplaceConfig | PrecisionConfig | RecallConfig | WraConfig => true
  | _ => false
  end.

(** Which methods are provided by the configuration of a rule learner.
    boosting/include/mlrl/boosting/learner_boomer_classifier.hpp 21-80,
    boosting/include/mlrl/boosting/learner_boomer_regressor.hpp 22-62; seco/include/mlrl/seco/learner_seco_classifier.hpp 27-70,
    together with the methods that are inherited from common/include/mlrl/common/learner.hpp 1254-1276,
    boosting/include/mlrl/boosting/learner.hpp 599-602, seco/include/mlrl/seco/learner.hpp 518-521. *)
Definition available (l : learner) (f : call) : bool :=
  match f with
  | useRNG | useSequentialRuleModelAssemblage | useNoParallelStatisticAggregation => true
  | useDefaultRule (DefaultRuleConfig b) => b || isBoosting l
  | useDefaultRule AutomaticDefaultRuleConfig => isBoosting l
  | useRuleInduction (GreedyTopDownRuleInductionConfig | BeamSearchTopDownRuleInductionConfig) => true
  | usePostProcessor NoPostProcessorConfig => true
  | usePostProcessor ConstantShrinkageConfig => isBoosting l
  | useFeatureBinning (NoFeatureBinningConfig | EqualWidthFeatureBinningConfig | EqualFrequencyFeatureBinningConfig) => true
  | useFeatureBinning AutomaticFeatureBinningConfig => isBoosting l
  | useOutputSampling (NoOutputSamplingConfig | OutputSamplingWithoutReplacementConfig | RoundRobinOutputSamplingConfig) => true
  | useInstanceSampling
      (NoInstanceSamplingConfig | InstanceSamplingWithReplacementConfig | InstanceSamplingWithoutReplacementConfig) => true
  | useStratifiedInstanceSampling
      (OutputWiseStratifiedInstanceSamplingConfig | ExampleWiseStratifiedInstanceSamplingConfig) => isClassifier l
  | useFeatureSampling (NoFeatureSamplingConfig | FeatureSamplingWithoutReplacementConfig) => true
  | usePartitionSampling (NoPartitionSamplingConfig | RandomBiPartitionSamplingConfig) => true
  | usePartitionSampling AutomaticPartitionSamplingConfig => isBoosting l
  | useStratifiedBiPartitionSampling
      (OutputWiseStratifiedBiPartitionSamplingConfig | ExampleWiseStratifiedBiPartitionSamplingConfig) => isClassifier l
  | useRulePruning (NoRulePruningConfig | IrepConfig) => true
  | useParallelRuleRefinement (NoMultiThreadingConfig | ManualMultiThreadingConfig) => true
  | useParallelRuleRefinement AutoParallelRuleRefinementConfig => isBoosting l
  | useParallelStatisticUpdate (NoMultiThreadingConfig | ManualMultiThreadingConfig) => true
  | useParallelStatisticUpdate AutoParallelStatisticUpdateConfig => isBoosting l
  | useParallelPrediction (NoMultiThreadingConfig | ManualMultiThreadingConfig) => true
  | useSizeStoppingCriterion (NoStoppingCriterionConfig | SizeStoppingCriterionConfig) => true
  | useTimeStoppingCriterion (NoStoppingCriterionConfig | TimeStoppingCriterionConfig) => true
  | useGlobalPruning NoGlobalPruningConfig => true
  | useGlobalPruning (PrePruningConfig | PostPruningConfig) => isBoosting l
  | useSequentialPostOptimization (NoPostOptimizationPhaseConfig | SequentialPostOptimizationConfig) => true
  | useMarginalProbabilityCalibration NoMarginalProbabilityCalibratorConfig => true
  | useMarginalProbabilityCalibration IsotonicMarginalProbabilityCalibratorConfig => isBoosting l && isClassifier l
  | useJointProbabilityCalibration NoJointProbabilityCalibratorConfig => true
  | useJointProbabilityCalibration IsotonicJointProbabilityCalibratorConfig => isBoosting l && isClassifier l
  | useScorePredictor NoScorePredictorConfig => true
  | useScorePredictor OutputWiseScorePredictorConfig => isBoosting l
  | useProbabilityPredictor NoProbabilityPredictorConfig => true
  | useProbabilityPredictor
      (OutputWiseProbabilityPredictorConfig | MarginalizedProbabilityPredictorConfig | AutomaticProbabilityPredictorConfig) =>
      isBoosting l && isClassifier l
  | useBinaryPredictor NoBinaryPredictorConfig => true
  | useBinaryPredictor
      (OutputWiseBinaryPredictorConfig | ExampleWiseBinaryPredictorConfig | GfmBinaryPredictorConfig
       | AutomaticBinaryPredictorConfig) => isBoosting l && isClassifier l
  | useBinaryPredictor SecoOutputWiseBinaryPredictorConfig => negb (isBoosting l)
  | useHeads
      (CompleteHeadConfig | FixedPartialHeadConfig | DynamicPartialHeadConfig | SingleOutputHeadConfig | AutomaticHeadConfig) =>
      isBoosting l
  | useHeads (SecoSingleOutputHeadConfig | SecoPartialHeadConfig) => negb (isBoosting l)
  | useStatistics (DenseStatisticsConfig | SparseStatisticsConfig | AutomaticStatisticsConfig) => isBoosting l
  | useLoss (DecomposableSquaredErrorLossConfig | NonDecomposableSquaredErrorLossConfig) => isBoosting l
  | useClassificationLoss
      (DecomposableLogisticLossConfig | DecomposableSquaredHingeLossConfig | NonDecomposableLogisticLossConfig
       | NonDecomposableSquaredHingeLossConfig) => isBoosting l && isClassifier l
  | useL1Regularization (NoRegularizationConfig | ManualRegularizationConfig) => isBoosting l
  | useL2Regularization (NoRegularizationConfig | ManualRegularizationConfig) => isBoosting l
  | useLabelBinning NoLabelBinningConfig => isBoosting l
  | useLabelBinning (EqualWidthLabelBinningConfig | AutomaticLabelBinningConfig) => isBoosting l && isClassifier l
  | useCoverageStoppingCriterion (NoStoppingCriterionConfig | CoverageStoppingCriterionConfig) => negb (isBoosting l)
  | useHeuristic c => negb (isBoosting l) && isHeuristic c
  | usePruningHeuristic c => negb (isBoosting l) && isHeuristic c
  | useLiftFunction (NoLiftFunctionConfig | PeakLiftFunctionConfig | KlnLiftFunctionConfig) => negb (isBoosting l)
  | _ => false
  end.

Section Configurations.

  (** The values of the parameters of a component. They are set by using the reference that is returned by a method for configuring a
      rule learner. *)
  Variable P : Type.

  (** The pointers that are stored by a configuration. *)
  Definition configuration := slot -> option (component * P).

  (** Sets a pointer, i.e., a previous component is replaced.
      common/include/mlrl/common/util/properties.hpp 164-182 (setter functions). *)
  Definition setSlot (s : slot) (v : option (component * P)) (c : configuration) : configuration :=
    fun s' => if slot_beq s s' then v else c s'.

  (** Invokes a method for configuring a rule learner and sets the parameters of the component. Simplified: The parameters of a component
      are set before another method is invoked. If they are set later, after the component has been replaced, the reference is
      dangling. *)
  Definition use (c : configuration) (fp : call * P) : configuration :=
    fold_left (fun c' (a : slot * option component) =>
                 setSlot (fst a) (match snd a with Some k => Some (k, snd fp) | None => None end) c')
              (assignments (fst fp)) c.

  (** Invokes a sequence of methods. *)
  Definition useAll (fs : list (call * P)) (c : configuration) : configuration := fold_left use fs c.

  (** The pointers that are initialized by the constructors, all others are null. [q] are the default parameters of components.
      common/include/mlrl/common/learner_common.hpp 664; seco/include/mlrl/seco/learner_common.hpp 120-127. *)
  Definition newConfiguration (l : learner) (q : component -> P) : configuration :=
    fun s =>
      let init k := Some (k, q k) in
      match s, l with
      | UnusedRuleRemovalSlot, _ => init UnusedRuleRemovalConfig
      | CoverageStoppingCriterionSlot, SeCoClassifier => init NoStoppingCriterionConfig
      | HeadSlot, SeCoClassifier => init SecoSingleOutputHeadConfig
      | HeuristicSlot, SeCoClassifier => init PrecisionConfig
      | PruningHeuristicSlot, SeCoClassifier => init PrecisionConfig
      | LiftFunctionSlot, SeCoClassifier => init NoLiftFunctionConfig
      | _, _ => None
      end.

End Configurations.

Arguments setSlot {P}.
Arguments use {P}.
Arguments useAll {P}.
Arguments newConfiguration {P}.

(** [IRuleLearnerMixin::useDefaults].
    common/include/mlrl/common/learner.hpp 1281-1304. *)
Definition commonDefaults : list call :=
  [useRNG; useDefaultRule (DefaultRuleConfig true); useFeatureBinning NoFeatureBinningConfig;
   useOutputSampling NoOutputSamplingConfig; useInstanceSampling NoInstanceSamplingConfig;
   useFeatureSampling NoFeatureSamplingConfig; usePartitionSampling NoPartitionSamplingConfig;
   useRulePruning NoRulePruningConfig; useParallelRuleRefinement NoMultiThreadingConfig; useNoParallelStatisticAggregation;
   useParallelStatisticUpdate NoMultiThreadingConfig; useParallelPrediction NoMultiThreadingConfig;
   useSizeStoppingCriterion NoStoppingCriterionConfig; useTimeStoppingCriterion NoStoppingCriterionConfig;
   useSequentialPostOptimization NoPostOptimizationPhaseConfig; usePostProcessor NoPostProcessorConfig;
   useGlobalPruning NoGlobalPruningConfig; useScorePredictor NoScorePredictorConfig;
   useProbabilityPredictor NoProbabilityPredictorConfig; useBinaryPredictor NoBinaryPredictorConfig;
   useMarginalProbabilityCalibration NoMarginalProbabilityCalibratorConfig;
   useJointProbabilityCalibration NoJointProbabilityCalibratorConfig].

(** [IBoostedRuleLearnerMixin::useDefaults].
    boosting/include/mlrl/boosting/learner.hpp 610-615. *)
Definition boostingDefaults : list call :=
  commonDefaults ++
  [useL1Regularization NoRegularizationConfig; useL2Regularization NoRegularizationConfig; useLabelBinning NoLabelBinningConfig].

(** [ISeCoRuleLearnerMixin::useDefaults].
    seco/include/mlrl/seco/learner.hpp 529-533. *)
Definition secoDefaults : list call :=
  commonDefaults ++ [useCoverageStoppingCriterion NoStoppingCriterionConfig; useLiftFunction NoLiftFunctionConfig].

(** [useDefaults] of the individual rule learners.
    boosting/src/mlrl/boosting/learner_boomer_classifier.cpp 22-43, boosting/src/mlrl/boosting/learner_boomer_regressor.cpp 22-40,
    seco/src/mlrl/seco/learner_seco_classifier.cpp 22-37. *)
Definition defaults (l : learner) : list call :=
  match l with
  | BoomerClassifier =>
      boostingDefaults ++
      [useDefaultRule AutomaticDefaultRuleConfig; useSequentialRuleModelAssemblage;
       useRuleInduction GreedyTopDownRuleInductionConfig; useFeatureBinning AutomaticFeatureBinningConfig;
       useFeatureSampling FeatureSamplingWithoutReplacementConfig; usePartitionSampling AutomaticPartitionSamplingConfig;
       usePostProcessor ConstantShrinkageConfig; useParallelRuleRefinement AutoParallelRuleRefinementConfig;
       useParallelStatisticUpdate AutoParallelStatisticUpdateConfig; useParallelPrediction ManualMultiThreadingConfig;
       useSizeStoppingCriterion SizeStoppingCriterionConfig; useScorePredictor OutputWiseScorePredictorConfig;
       useProbabilityPredictor AutomaticProbabilityPredictorConfig; useBinaryPredictor AutomaticBinaryPredictorConfig;
       useHeads AutomaticHeadConfig; useStatistics AutomaticStatisticsConfig;
       useClassificationLoss DecomposableLogisticLossConfig; useL2Regularization ManualRegularizationConfig;
       useLabelBinning AutomaticLabelBinningConfig]
  | BoomerRegressor =>
      boostingDefaults ++
      [useDefaultRule AutomaticDefaultRuleConfig; useSequentialRuleModelAssemblage;
       useRuleInduction GreedyTopDownRuleInductionConfig; useFeatureBinning AutomaticFeatureBinningConfig;
       useFeatureSampling FeatureSamplingWithoutReplacementConfig; usePartitionSampling AutomaticPartitionSamplingConfig;
       usePostProcessor ConstantShrinkageConfig; useParallelRuleRefinement AutoParallelRuleRefinementConfig;
       useParallelStatisticUpdate AutoParallelStatisticUpdateConfig; useParallelPrediction ManualMultiThreadingConfig;
       useSizeStoppingCriterion SizeStoppingCriterionConfig; useScorePredictor OutputWiseScorePredictorConfig;
       useHeads AutomaticHeadConfig; useStatistics AutomaticStatisticsConfig; useLoss DecomposableSquaredErrorLossConfig;
       useL2Regularization ManualRegularizationConfig]
  | SeCoClassifier =>
      secoDefaults ++
      [useSequentialRuleModelAssemblage; useRuleInduction GreedyTopDownRuleInductionConfig;
       useStratifiedInstanceSampling OutputWiseStratifiedInstanceSamplingConfig; useRulePruning IrepConfig;
       useParallelRuleRefinement ManualMultiThreadingConfig; useParallelPrediction ManualMultiThreadingConfig;
       useSizeStoppingCriterion SizeStoppingCriterionConfig; useBinaryPredictor SecoOutputWiseBinaryPredictorConfig;
       useCoverageStoppingCriterion CoverageStoppingCriterionConfig; useHeads SecoSingleOutputHeadConfig;
       useHeuristic FMeasureConfig; usePruningHeuristic AccuracyConfig; useLiftFunction PeakLiftFunctionConfig]
  end.

(** The configuration that is provided to a user. [q] are the default parameters of components.
    boosting/src/mlrl/boosting/learner_boomer_classifier.cpp 69-73, boosting/src/mlrl/boosting/learner_boomer_regressor.cpp 66-70,
    seco/src/mlrl/seco/learner_seco_classifier.cpp 83-87. *)
Definition createConfig {P} (l : learner) (q : component -> P) : configuration P :=
  useAll (map (fun f => (f, q (created f))) (defaults l)) (newConfiguration l q).

(** A property that is handed over to a component: Either a single pointer or the pointers to be used by classifiers and regressors.
    common/include/mlrl/common/util/properties.hpp 97-158 (getter functions);
    boosting/include/mlrl/boosting/learner_common.hpp 132-136, 154-157. *)
Inductive property := One (s : slot) | Either (s1 s2 : slot).

(** See above (common/include/mlrl/common/util/properties.hpp, lines 97-158; boosting/include/mlrl/boosting/learner_common.hpp,
    lines 132-136, 154-157). *)
Definition LossProperty : property := Either ClassificationLossSlot RegressionLossSlot.

(** See above (common/include/mlrl/common/util/properties.hpp, lines 97-158; boosting/include/mlrl/boosting/learner_common.hpp,
    lines 132-136, 154-157). *)
Definition StatisticsProperty : property := Either ClassificationStatisticsSlot RegressionStatisticsSlot.

(** Evaluates a property. This is done whenever the property is accessed, i.e., not before the configuration is complete. [None] is an
    exception that is thrown, because of a null pointer. *)
Definition getProperty {P} (c : configuration P) (r : property) : option (component * P) :=
  match r with
  | One s => c s
  | Either s1 s2 => match c s1 with Some v => Some v | None => c s2 end
  end.

(** The functions of components that are used by other components or for training and predicting. [createFactory] is any function for
    creating the factory a component is made for, [createClassification] and [createRegression] create the factories for
    providing statistics, [createProbabilityFunction] is any function of a loss function that is used for predicting or for
    calibrating probabilities, and [isFormat] is [isDense] or [isSparse] of a format for storing statistics. *)
Inductive function :=
| createFactory | createClassification | createRegression | createProbabilityFunction | isDecomposable | isSparse | isFormat
| isPartial | isSingleOutput | isDefaultRuleUsed | getSettings | isSamplingUsed | shouldUseHoldoutSet | shouldRemoveUnusedRules
| getWeight | isLabelVectorSetNeeded.

(** The functions of other components that may be used by a function of a component. Whether they are actually used possibly depends on
    the training data or on the results of previous functions. E.g.,
    common/src/mlrl/common/rule_model_assemblage/rule_model_assemblage_sequential.cpp 112-114,
    common/src/mlrl/common/rule_induction/rule_induction_top_down_greedy.cpp 249-250,
    common/src/mlrl/common/rule_induction/rule_induction_top_down_beam_search.cpp 529-530,
    common/src/mlrl/common/rule_refinement/rule_refinement_statistics_based.cpp 117,
    common/src/mlrl/common/post_optimization/post_optimization_sequential.cpp 199,
    common/src/mlrl/common/sampling/instance_sampling_without_replacement.cpp 193-199 (other sampling methods are similar),
    boosting/src/mlrl/boosting/rule_model_assemblage/default_rule_auto.cpp 10-19,
    boosting/src/mlrl/boosting/sampling/partition_sampling_auto.cpp 25-44,
    boosting/src/mlrl/boosting/multi_threading/parallel_rule_refinement_auto.cpp 16-18,
    boosting/src/mlrl/boosting/multi_threading/parallel_statistic_update_auto.cpp 14,
    boosting/src/mlrl/boosting/statistics/statistic_format_auto.cpp 12-34 (as well as statistic_format_dense.cpp, 14-30 and
    statistic_format_sparse.cpp, 14-22),
    boosting/src/mlrl/boosting/rule_evaluation/head_type_complete.cpp 20-107 (other types of heads are similar),
    boosting/src/mlrl/boosting/rule_evaluation/head_type_auto.cpp 16-75,
    boosting/src/mlrl/boosting/losses/loss_decomposable_squared_error.cpp 67-74 (other loss functions are similar),
    boosting/src/mlrl/boosting/binning/label_binning_no.cpp 18-67 (other binning methods are similar),
    boosting/src/mlrl/boosting/prediction/probability_calibration_isotonic.cpp 325, 672,
    boosting/src/mlrl/boosting/prediction/predictor_binary_auto.cpp 13-41 (other predictors are similar),
    seco/src/mlrl/seco/rule_evaluation/head_type_partial.cpp 21-26, seco/src/mlrl/seco/rule_evaluation/head_type_single.cpp 19-22,
    seco/src/mlrl/seco/prediction/predictor_binary_output_wise.cpp 472-479. *)
Definition uses (k : component) (f : function) : list (property * function) :=
  match f, k with
  | createFactory, SequentialRuleModelAssemblageConfig =>
      [(One DefaultRuleSlot, isDefaultRuleUsed); (One RuleInductionSlot, createFactory)]
  | isDefaultRuleUsed, AutomaticDefaultRuleConfig =>
      [(StatisticsProperty, isFormat); (LossProperty, isSparse); (One HeadSlot, isPartial)]
  | createFactory, (GreedyTopDownRuleInductionConfig | BeamSearchTopDownRuleInductionConfig) =>
      [(One RuleRefinementSlot, createFactory); (One RulePruningSlot, createFactory); (One PostProcessorSlot, createFactory)]
  | createFactory, StatisticsBasedRuleRefinementConfig => [(One ParallelRuleRefinementSlot, getSettings)]
  | createFactory, SequentialPostOptimizationConfig => [(One RuleInductionSlot, createFactory)]
  | createFactory,
    (OutputSamplingWithoutReplacementConfig | InstanceSamplingWithReplacementConfig | InstanceSamplingWithoutReplacementConfig
     | OutputWiseStratifiedInstanceSamplingConfig | ExampleWiseStratifiedInstanceSamplingConfig
     | FeatureSamplingWithoutReplacementConfig | RandomBiPartitionSamplingConfig | OutputWiseStratifiedBiPartitionSamplingConfig
     | ExampleWiseStratifiedBiPartitionSamplingConfig) => [(One RNGSlot, createFactory)]
  | createFactory, AutomaticPartitionSamplingConfig =>
      [(One GlobalPruningSlot, shouldUseHoldoutSet); (One MarginalProbabilityCalibratorSlot, shouldUseHoldoutSet);
       (One JointProbabilityCalibratorSlot, shouldUseHoldoutSet); (One RNGSlot, createFactory)]
  | getSettings, AutoParallelRuleRefinementConfig =>
      [(LossProperty, isDecomposable); (One HeadSlot, isSingleOutput); (One FeatureSamplingSlot, isSamplingUsed)]
  | getSettings, AutoParallelStatisticUpdateConfig => [(LossProperty, isDecomposable)]
  | createClassification, (DenseStatisticsConfig | SparseStatisticsConfig) =>
      [(One ClassificationLossSlot, createClassification)]
  | createRegression, (DenseStatisticsConfig | SparseStatisticsConfig) => [(One RegressionLossSlot, createRegression)]
  | createClassification, AutomaticStatisticsConfig =>
      [(One DefaultRuleSlot, isDefaultRuleUsed); (One HeadSlot, isPartial); (One ClassificationLossSlot, createClassification)]
  | createRegression, AutomaticStatisticsConfig =>
      [(One DefaultRuleSlot, isDefaultRuleUsed); (One HeadSlot, isPartial); (One RegressionLossSlot, createRegression)]
  | createClassification,
    (DecomposableLogisticLossConfig | DecomposableSquaredErrorLossConfig | DecomposableSquaredHingeLossConfig
     | NonDecomposableLogisticLossConfig | NonDecomposableSquaredErrorLossConfig | NonDecomposableSquaredHingeLossConfig) =>
      [(One HeadSlot, createClassification)]
  | createRegression, (DecomposableSquaredErrorLossConfig | NonDecomposableSquaredErrorLossConfig) =>
      [(One HeadSlot, createRegression)]
  | (createClassification | createRegression), (CompleteHeadConfig | SingleOutputHeadConfig | AutomaticHeadConfig) =>
      [(One L1Slot, getWeight); (One L2Slot, getWeight); (One ParallelStatisticUpdateSlot, getSettings);
       (One LabelBinningSlot, createFactory)]
  | (createClassification | createRegression), (FixedPartialHeadConfig | DynamicPartialHeadConfig) =>
      [(One ParallelStatisticUpdateSlot, getSettings); (One LabelBinningSlot, createFactory)]
  | (isPartial | isSingleOutput), AutomaticHeadConfig => [(LossProperty, isDecomposable); (LossProperty, isSparse)]
  | createFactory, (NoLabelBinningConfig | EqualWidthLabelBinningConfig | AutomaticLabelBinningConfig) =>
      [(One L1Slot, getWeight); (One L2Slot, getWeight)]
  | createFactory, (IsotonicMarginalProbabilityCalibratorConfig | IsotonicJointProbabilityCalibratorConfig) =>
      [(One ClassificationLossSlot, createProbabilityFunction)]
  | createFactory, (OutputWiseScorePredictorConfig | SecoOutputWiseBinaryPredictorConfig) =>
      [(One ParallelPredictionSlot, getSettings)]
  | createFactory,
    (OutputWiseProbabilityPredictorConfig | MarginalizedProbabilityPredictorConfig | OutputWiseBinaryPredictorConfig
     | ExampleWiseBinaryPredictorConfig | GfmBinaryPredictorConfig) =>
      [(One ClassificationLossSlot, createProbabilityFunction); (One ParallelPredictionSlot, getSettings)]
  | createFactory, (AutomaticProbabilityPredictorConfig | AutomaticBinaryPredictorConfig) =>
      [(One ClassificationLossSlot, isDecomposable); (One ClassificationLossSlot, createProbabilityFunction);
       (One ParallelPredictionSlot, getSettings)]
  | isLabelVectorSetNeeded, (AutomaticProbabilityPredictorConfig | AutomaticBinaryPredictorConfig) =>
      [(One ClassificationLossSlot, isDecomposable)]
  | createClassification, SecoSingleOutputHeadConfig =>
      [(One HeuristicSlot, createFactory); (One PruningHeuristicSlot, createFactory)]
  | createClassification, SecoPartialHeadConfig =>
      [(One HeuristicSlot, createFactory); (One LiftFunctionSlot, createFactory); (One PruningHeuristicSlot, createFactory)]
  | _, _ => []
  end.

(** The functions of components that are used for training a model, in order.
    common/include/mlrl/common/learner_classification_common.hpp 31-123,
    common/include/mlrl/common/learner_regression_common.hpp 29-102, together with the functions of the configurator, see
    common/include/mlrl/common/learner_common.hpp 119-392, boosting/include/mlrl/boosting/learner_common.hpp 51-67,
    seco/include/mlrl/seco/learner_common.hpp 25-56. *)
Definition usedForTraining (l : learner) : list (property * function) :=
  [(One SizeStoppingCriterionSlot, createFactory); (One TimeStoppingCriterionSlot, createFactory);
   (One GlobalPruningSlot, createFactory)] ++
  (match l with SeCoClassifier => [(One CoverageStoppingCriterionSlot, createFactory)] | _ => [] end) ++
  [(One GlobalPruningSlot, shouldRemoveUnusedRules); (One UnusedRuleRemovalSlot, createFactory);
   (One SequentialPostOptimizationSlot, createFactory)] ++
  (if isClassifier l then
     [(One BinaryPredictorSlot, isLabelVectorSetNeeded); (One ScorePredictorSlot, isLabelVectorSetNeeded);
      (One ProbabilityPredictorSlot, isLabelVectorSetNeeded); (One JointProbabilityCalibratorSlot, isLabelVectorSetNeeded);
      (One ClassificationPartitionSamplingSlot, createFactory)]
   else [(One RegressionPartitionSamplingSlot, createFactory)]) ++
  (match l with
   | BoomerClassifier => [(One ClassificationStatisticsSlot, createClassification)]
   | BoomerRegressor => [(One RegressionStatisticsSlot, createRegression)]
   | SeCoClassifier => [(One HeadSlot, createClassification)]
   end) ++
  [(One FeatureBinningSlot, createFactory); (One ParallelStatisticUpdateSlot, getSettings);
   (One OutputSamplingSlot, createFactory);
   (One (if isClassifier l then ClassificationInstanceSamplingSlot else RegressionInstanceSamplingSlot), createFactory);
   (One FeatureSamplingSlot, createFactory); (One RuleModelAssemblageSlot, createFactory)] ++
  (if isClassifier l then
     [(One MarginalProbabilityCalibratorSlot, createFactory); (One JointProbabilityCalibratorSlot, createFactory)]
   else []).

(** The functions of components that are used for obtaining predictions.
    common/include/mlrl/common/learner_common.hpp 403-453, common/include/mlrl/common/learner_classification_common.hpp 125-200,
    common/include/mlrl/common/learner_regression_common.hpp 104-120. *)
Definition usedForPrediction (l : learner) : list (property * function) :=
  (One ScorePredictorSlot, createFactory) ::
  (if isClassifier l then [(One ProbabilityPredictorSlot, createFactory); (One BinaryPredictorSlot, createFactory)] else []).

(** The parameters of components. *)
Inductive parameter :=
| RandomState | BinRatio | MinBins | MaxBins | SampleSize | MinSamples | MaxSamples | NumRetained | HoldoutSize | BeamWidth
| ResampleFeatures | MinimumCoverage | MinimumSupport | MaxConditions | MaxHeadRefinements | RecalculatePredictions
| NumPreferredThreads | MaxRules | TimeLimit | UseHoldoutSet | RemoveUnusedRules | MinRules | Interval | UpdateInterval
| StopInterval | NumPast | NumRecent | Aggregation | MinimumImprovement | NumIterations | RefineHeads | ShrinkageRate | Weight
| RatioOfOutputs | MinOutputs | MaxOutputs | Threshold | Exponent | BasedOnProbabilities | UseProbabilityCalibration | BetaValue
| MValue.

(** Truth values and aggregation functions as numbers. *)
Definition yes : Q := 1.
Definition no : Q := 0.
Definition minAggregation : Q := 0.
Definition maxAggregation : Q := 1.
Definition meanAggregation : Q := 2.

(** The initial values of parameters, i.e., the values that are set by the constructors of components. Floating point numbers are
    considered as the decimal numbers they are written as.
    common/src/mlrl/common/random/rng.cpp 34, input/feature_binning_equal_width.cpp 226, input/feature_binning_equal_frequency.cpp
    220, sampling/output_sampling_without_replacement.cpp 71, sampling/instance_sampling_with_replacement.cpp 191,
    sampling/instance_sampling_without_replacement.cpp 158, sampling/instance_sampling_stratified_output_wise.cpp 124,
    sampling/instance_sampling_stratified_example_wise.cpp 125, sampling/feature_sampling_without_replacement.cpp 102,
    sampling/partition_sampling_bi_random.cpp 99, sampling/partition_sampling_bi_stratified_output_wise.cpp 87,
    sampling/partition_sampling_bi_stratified_example_wise.cpp 86, rule_induction/rule_induction_top_down_greedy.cpp 178-179,
    rule_induction/rule_induction_top_down_beam_search.cpp 436-437, multi_threading/multi_threading_manual.cpp 6,
    stopping/stopping_criterion_size.cpp 57, stopping/stopping_criterion_time.cpp 75, stopping/global_pruning_pre.cpp 195-196,
    stopping/global_pruning_post.cpp 97, post_optimization/post_optimization_sequential.cpp 166;
    boosting/src/mlrl/boosting/post_processing/shrinkage_constant.cpp 58, rule_evaluation/regularization_manual.cpp 7,
    rule_evaluation/head_type_partial_fixed.cpp 28, rule_evaluation/head_type_partial_dynamic.cpp 12,
    binning/label_binning_equal_width.cpp 169, prediction/probability_calibration_isotonic.cpp 306, 649,
    prediction/predictor_binary_output_wise.cpp 180, prediction/predictor_binary_example_wise.cpp 231 (calibration models are used
    unless null pointers are replaced, see prediction/predictor_binary_gfm.cpp 228-239);
    seco/src/mlrl/seco/heuristics/heuristic_f_measure.cpp 68, heuristics/heuristic_m_estimate.cpp 71. The parameters of lift functions
    and of the stopping criterion for uncovered examples are not considered, because they are not documented. *)
Definition initialValues (k : component) : list (parameter * Q) :=
  match k with
  | RNGConfig => [(RandomState, 1)]
  | EqualWidthFeatureBinningConfig | EqualFrequencyFeatureBinningConfig => [(BinRatio, 33 # 100); (MinBins, 2); (MaxBins, 0)]
  | OutputSamplingWithoutReplacementConfig => [(SampleSize, 33 # 100); (MinSamples, 1); (MaxSamples, 1)]
  | InstanceSamplingWithReplacementConfig | InstanceSamplingWithoutReplacementConfig | OutputWiseStratifiedInstanceSamplingConfig
  | ExampleWiseStratifiedInstanceSamplingConfig => [(SampleSize, 66 # 100); (MinSamples, 1); (MaxSamples, 0)]
  | FeatureSamplingWithoutReplacementConfig => [(SampleSize, 0); (MinSamples, 1); (MaxSamples, 0); (NumRetained, 0)]
  | RandomBiPartitionSamplingConfig | OutputWiseStratifiedBiPartitionSamplingConfig
  | ExampleWiseStratifiedBiPartitionSamplingConfig => [(HoldoutSize, 33 # 100)]
  | GreedyTopDownRuleInductionConfig =>
      [(MinimumCoverage, 1); (MinimumSupport, 0); (MaxConditions, 0); (MaxHeadRefinements, 1); (RecalculatePredictions, yes)]
  | BeamSearchTopDownRuleInductionConfig =>
      [(BeamWidth, 4); (ResampleFeatures, no); (MinimumCoverage, 1); (MinimumSupport, 0); (MaxConditions, 0);
       (MaxHeadRefinements, 1); (RecalculatePredictions, yes)]
  | ManualMultiThreadingConfig => [(NumPreferredThreads, 0)]
  | SizeStoppingCriterionConfig => [(MaxRules, 10)]
  | TimeStoppingCriterionConfig => [(TimeLimit, 3600)]
  | PrePruningConfig =>
      [(Aggregation, meanAggregation); (UseHoldoutSet, yes); (RemoveUnusedRules, yes); (MinRules, 100); (UpdateInterval, 1);
       (StopInterval, 1); (NumPast, 50); (NumRecent, 50); (MinimumImprovement, 5 # 1000)]
  | PostPruningConfig => [(UseHoldoutSet, yes); (RemoveUnusedRules, yes); (MinRules, 100); (Interval, 1)]
  | SequentialPostOptimizationConfig => [(NumIterations, 2); (RefineHeads, no); (ResampleFeatures, yes)]
  | ConstantShrinkageConfig => [(ShrinkageRate, 3 # 10)]
  | ManualRegularizationConfig => [(Weight, 1)]
  | FixedPartialHeadConfig => [(RatioOfOutputs, 0); (MinOutputs, 2); (MaxOutputs, 0)]
  | DynamicPartialHeadConfig => [(Threshold, 2 # 100); (Exponent, 2)]
  | EqualWidthLabelBinningConfig => [(BinRatio, 4 # 100); (MinBins, 1); (MaxBins, 0)]
  | IsotonicMarginalProbabilityCalibratorConfig | IsotonicJointProbabilityCalibratorConfig => [(UseHoldoutSet, yes)]
  | OutputWiseBinaryPredictorConfig | ExampleWiseBinaryPredictorConfig =>
      [(BasedOnProbabilities, no); (UseProbabilityCalibration, yes)]
  | GfmBinaryPredictorConfig | OutputWiseProbabilityPredictorConfig | MarginalizedProbabilityPredictorConfig =>
      [(UseProbabilityCalibration, yes)]
  | FMeasureConfig => [(BetaValue, 25 # 100)]
  | MEstimateConfig => [(MValue, 22466 # 1000)]
  | _ => []
  end%Q.

Scheme Equality for parameter.

(** Replaces the value of a parameter. *)
Definition setValue (x : parameter) (v : Q) (vs : list (parameter * Q)) : list (parameter * Q) :=
  map (fun e => if parameter_beq x (fst e) then (x, v) else e) vs.

(** The default parameters of components, including the values that are set by the individual rule learners when a component is created.
    boosting/src/mlrl/boosting/learner_boomer_classifier.cpp 48-52, boosting/src/mlrl/boosting/learner_boomer_regressor.cpp 45-49,
    seco/src/mlrl/seco/learner_seco_classifier.cpp 42-66. *)
Definition defaultParameters (l : learner) (k : component) : list (parameter * Q) :=
  match k, l with
  | SizeStoppingCriterionConfig, SeCoClassifier => setValue MaxRules 500 (initialValues k)
  | SizeStoppingCriterionConfig, _ => setValue MaxRules 1000 (initialValues k)
  | (GreedyTopDownRuleInductionConfig | BeamSearchTopDownRuleInductionConfig), SeCoClassifier =>
      setValue RecalculatePredictions no (initialValues k)
  | _, _ => initialValues k
  end%Q.
