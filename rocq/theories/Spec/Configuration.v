(** Vocabulary for stating properties of configurations. *)
From Coq Require Import QArith Bool List.
From Verif Require Import Model.Configuration.
Import ListNotations.
Open Scope nat_scope.

(** A method affects a pointer. *)
Definition affects (f : call) (s : slot) : Prop := exists v, In (s, v) (assignments f).

(** The methods in a sequence that affect a pointer, in order. *)
Inductive affecting {P : Type} (s : slot) : list (call * P) -> list (call * P) -> Prop :=
| affecting_nil : affecting s [] []
| affecting_skip : forall f fs gs, ~ affects (fst f) s -> affecting s fs gs -> affecting s (f :: fs) gs
| affecting_keep : forall f fs gs, affects (fst f) s -> affecting s fs gs -> affecting s (f :: fs) (f :: gs).

(** All methods in a sequence are provided by a rule learner. *)
Definition allAvailable {P : Type} (l : learner) (fs : list (call * P)) : Prop :=
  forall f, In f fs -> available l (fst f) = true.

(** A function of a component, including all functions that are possibly used in turn, completes, i.e., no null pointer is accessed and
    the functions do not use each other infinitely. *)
Inductive completes {P : Type} (c : configuration P) : property -> function -> Prop :=
| completes_intro : forall r f k p,
    getProperty c r = Some (k, p) ->
    (forall u, In u (uses k f) -> completes c (fst u) (snd u)) ->
    completes c r f.

(** The documented default settings, as far as they correspond to components.
    doc/user_guide/boosting/parameters.md: loss (62-64), shrinkage (86-88), l1_regularization_weight (92-94), l2_regularization_weight
    (98-100), default_rule (108-110), rule_induction (123-125), head_type (183-185), max_rules (228-230), time_limit (234-236),
    holdout (244-246), rule_pruning (279-281), global_pruning (293-295), sequential_post_optimization (360-362), random_state
    (388-390), output_sampling (394-396), feature_sampling (423-425), instance_sampling (453-455), feature_binning (526-528),
    label_binning (565-567), statistic_format (594-596), marginal_probability_calibration (615-617), joint_probability_calibration
    (633-635), binary_predictor (653-655), probability_predictor (691-693), parallel_rule_refinement (722-724),
    parallel_statistic_update (741-743), parallel_prediction (760-762). *)
Definition documentedForBoosting (l : learner) (s : slot) : option component :=
  match s with
  | ClassificationLossSlot => if isClassifier l then Some DecomposableLogisticLossConfig else None
  | RegressionLossSlot => if isClassifier l then None else Some DecomposableSquaredErrorLossConfig
  | PostProcessorSlot => Some ConstantShrinkageConfig
  | L1Slot => Some NoRegularizationConfig
  | L2Slot => Some ManualRegularizationConfig
  | DefaultRuleSlot => Some AutomaticDefaultRuleConfig
  | RuleInductionSlot => Some GreedyTopDownRuleInductionConfig
  | HeadSlot => Some AutomaticHeadConfig
  | SizeStoppingCriterionSlot => Some SizeStoppingCriterionConfig
  | TimeStoppingCriterionSlot => Some NoStoppingCriterionConfig
  | ClassificationPartitionSamplingSlot | RegressionPartitionSamplingSlot => Some AutomaticPartitionSamplingConfig
  | RulePruningSlot => Some NoRulePruningConfig
  | GlobalPruningSlot => Some NoGlobalPruningConfig
  | SequentialPostOptimizationSlot => Some NoPostOptimizationPhaseConfig
  | RNGSlot => Some RNGConfig
  | OutputSamplingSlot => Some NoOutputSamplingConfig
  | FeatureSamplingSlot => Some FeatureSamplingWithoutReplacementConfig
  | ClassificationInstanceSamplingSlot | RegressionInstanceSamplingSlot => Some NoInstanceSamplingConfig
  | FeatureBinningSlot => Some NoFeatureBinningConfig
  | LabelBinningSlot => if isClassifier l then Some AutomaticLabelBinningConfig else None
  | ClassificationStatisticsSlot | RegressionStatisticsSlot => Some AutomaticStatisticsConfig
  | MarginalProbabilityCalibratorSlot => Some NoMarginalProbabilityCalibratorConfig
  | JointProbabilityCalibratorSlot => Some NoJointProbabilityCalibratorConfig
  | BinaryPredictorSlot => if isClassifier l then Some AutomaticBinaryPredictorConfig else None
  | ProbabilityPredictorSlot => if isClassifier l then Some AutomaticProbabilityPredictorConfig else None
  | ParallelRuleRefinementSlot => Some AutoParallelRuleRefinementConfig
  | ParallelStatisticUpdateSlot => Some AutoParallelStatisticUpdateConfig
  | ParallelPredictionSlot => Some ManualMultiThreadingConfig
  | _ => None
  end.

(** doc/user_guide/seco/parameters.md: heuristic (62-64), pruning_heuristic (97-99), lift_function (124-126), default_rule (143-145),
    rule_induction (155-157), head_type (215-217), max_rules (231-233), time_limit (237-239), holdout (245-247), rule_pruning
    (280-282), sequential_post_optimization (292-294), random_state (318-320), output_sampling (324-326), feature_sampling (353-355),
    instance_sampling (383-385), feature_binning (454-456), parallel_rule_refinement (501-503), parallel_statistic_update (517-519),
    parallel_prediction (533-535). *)
Definition documentedForSeCo (s : slot) : option component :=
  match s with
  | HeuristicSlot => Some FMeasureConfig
  | PruningHeuristicSlot => Some AccuracyConfig
  | LiftFunctionSlot => Some PeakLiftFunctionConfig
  | DefaultRuleSlot => Some (DefaultRuleConfig true)
  | RuleInductionSlot => Some GreedyTopDownRuleInductionConfig
  | HeadSlot => Some SecoSingleOutputHeadConfig
  | SizeStoppingCriterionSlot => Some SizeStoppingCriterionConfig
  | TimeStoppingCriterionSlot => Some NoStoppingCriterionConfig
  | ClassificationPartitionSamplingSlot => Some AutomaticPartitionSamplingConfig
  | RulePruningSlot => Some NoRulePruningConfig
  | SequentialPostOptimizationSlot => Some NoPostOptimizationPhaseConfig
  | RNGSlot => Some RNGConfig
  | OutputSamplingSlot => Some NoOutputSamplingConfig
  | FeatureSamplingSlot => Some FeatureSamplingWithoutReplacementConfig
  | ClassificationInstanceSamplingSlot => Some NoInstanceSamplingConfig
  | FeatureBinningSlot => Some NoFeatureBinningConfig
  | ParallelRuleRefinementSlot => Some ManualMultiThreadingConfig
  | ParallelStatisticUpdateSlot => Some NoMultiThreadingConfig
  | ParallelPredictionSlot => Some ManualMultiThreadingConfig
  | _ => None
  end.

Definition documented (l : learner) (s : slot) : option component :=
  match l with SeCoClassifier => documentedForSeCo s | _ => documentedForBoosting l s end.

(** The documented default values of the options of components.
    doc/user_guide/boosting/parameters.md 86-100, 127-181, 187-222, 228-230, 248-275, 297-358, 364-382, 388-390, 398-419, 427-449,
    457-520, 530-563, 569-590, 619-629, 637-647, 657-689, 695-712, 726-774; doc/user_guide/seco/parameters.md 66-95, 159-213,
    231-233, 249-276, 296-314, 318-320, 328-349, 357-379, 387-450, 458-491, 505-547. *)
Definition documentedValue (k : component) (x : parameter) : option Q :=
  match k, x with
  | ConstantShrinkageConfig, ShrinkageRate => Some (3 # 10)
  | ManualRegularizationConfig, Weight => Some 1
  | (GreedyTopDownRuleInductionConfig | BeamSearchTopDownRuleInductionConfig), MaxConditions => Some 0
  | (GreedyTopDownRuleInductionConfig | BeamSearchTopDownRuleInductionConfig), MinimumCoverage => Some 1
  | (GreedyTopDownRuleInductionConfig | BeamSearchTopDownRuleInductionConfig), MinimumSupport => Some 0
  | (GreedyTopDownRuleInductionConfig | BeamSearchTopDownRuleInductionConfig), MaxHeadRefinements => Some 1
  | (GreedyTopDownRuleInductionConfig | BeamSearchTopDownRuleInductionConfig), RecalculatePredictions => Some yes
  | BeamSearchTopDownRuleInductionConfig, BeamWidth => Some 4
  | BeamSearchTopDownRuleInductionConfig, ResampleFeatures => Some no
  | FixedPartialHeadConfig, RatioOfOutputs => Some 0
  | FixedPartialHeadConfig, MinOutputs => Some 2
  | FixedPartialHeadConfig, MaxOutputs => Some 0
  | DynamicPartialHeadConfig, Threshold => Some (2 # 100)
  | DynamicPartialHeadConfig, Exponent => Some 2
  | SizeStoppingCriterionConfig, MaxRules => Some 1000
  | (RandomBiPartitionSamplingConfig | OutputWiseStratifiedBiPartitionSamplingConfig
     | ExampleWiseStratifiedBiPartitionSamplingConfig), HoldoutSize => Some (33 # 100)
  | (PrePruningConfig | PostPruningConfig), UseHoldoutSet => Some yes
  | (PrePruningConfig | PostPruningConfig), RemoveUnusedRules => Some yes
  | (PrePruningConfig | PostPruningConfig), MinRules => Some 100
  | PostPruningConfig, Interval => Some 1
  | PrePruningConfig, UpdateInterval => Some 1
  | PrePruningConfig, StopInterval => Some 1
  | PrePruningConfig, NumPast => Some 50
  | PrePruningConfig, NumRecent => Some 50
  | PrePruningConfig, Aggregation => Some minAggregation
  | PrePruningConfig, MinimumImprovement => Some (5 # 1000)
  | SequentialPostOptimizationConfig, NumIterations => Some 2
  | SequentialPostOptimizationConfig, RefineHeads => Some no
  | SequentialPostOptimizationConfig, ResampleFeatures => Some yes
  | RNGConfig, RandomState => Some 1
  | OutputSamplingWithoutReplacementConfig, SampleSize => Some (33 # 100)
  | OutputSamplingWithoutReplacementConfig, MinSamples => Some 1
  | OutputSamplingWithoutReplacementConfig, MaxSamples => Some 1
  | FeatureSamplingWithoutReplacementConfig, SampleSize => Some 0
  | FeatureSamplingWithoutReplacementConfig, MinSamples => Some 1
  | FeatureSamplingWithoutReplacementConfig, MaxSamples => Some 0
  | FeatureSamplingWithoutReplacementConfig, NumRetained => Some 0
  | InstanceSamplingWithReplacementConfig, SampleSize => Some 1
  | (InstanceSamplingWithoutReplacementConfig | OutputWiseStratifiedInstanceSamplingConfig
     | ExampleWiseStratifiedInstanceSamplingConfig), SampleSize => Some (66 # 100)
  | (InstanceSamplingWithReplacementConfig | InstanceSamplingWithoutReplacementConfig
     | OutputWiseStratifiedInstanceSamplingConfig | ExampleWiseStratifiedInstanceSamplingConfig), MinSamples => Some 1
  | (InstanceSamplingWithReplacementConfig | InstanceSamplingWithoutReplacementConfig
     | OutputWiseStratifiedInstanceSamplingConfig | ExampleWiseStratifiedInstanceSamplingConfig), MaxSamples => Some 0
  | (EqualWidthFeatureBinningConfig | EqualFrequencyFeatureBinningConfig), BinRatio => Some (33 # 100)
  | (EqualWidthFeatureBinningConfig | EqualFrequencyFeatureBinningConfig), MinBins => Some 2
  | (EqualWidthFeatureBinningConfig | EqualFrequencyFeatureBinningConfig), MaxBins => Some 0
  | EqualWidthLabelBinningConfig, BinRatio => Some (4 # 100)
  | EqualWidthLabelBinningConfig, MinBins => Some 1
  | EqualWidthLabelBinningConfig, MaxBins => Some 0
  | (IsotonicMarginalProbabilityCalibratorConfig | IsotonicJointProbabilityCalibratorConfig), UseHoldoutSet => Some yes
  | (OutputWiseBinaryPredictorConfig | ExampleWiseBinaryPredictorConfig), BasedOnProbabilities => Some no
  | (OutputWiseBinaryPredictorConfig | ExampleWiseBinaryPredictorConfig | GfmBinaryPredictorConfig
     | OutputWiseProbabilityPredictorConfig | MarginalizedProbabilityPredictorConfig), UseProbabilityCalibration => Some yes
  | ManualMultiThreadingConfig, NumPreferredThreads => Some 0
  | FMeasureConfig, BetaValue => Some 1
  | MEstimateConfig, MValue => Some (22466 # 1000)
  | _, _ => None
  end%Q.
