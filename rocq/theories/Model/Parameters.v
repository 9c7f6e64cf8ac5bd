(** Model of the methods that set parameters and of the values they reject. Paths are relative to cpp/subprojects. Values of the
    types [float32] and [float64] are represented as in Model/Floats.v, values of the type [uint32] by integers. A method that
    rejects a value throws an exception, which leaves the configuration unchanged. *)
From Coq Require Import ZArith Bool List.
From Verif Require Import Model.Floats.
Import ListNotations.
Open Scope Z_scope.

(** common/include/mlrl/common/util/validation.hpp, lines 19-73: whether floating point values are accepted. The first and the third
    function negate a comparison, the others do not. *)
Definition assertGreater (value threshold : float) : bool := gtb value threshold.
(** See above (common/include/mlrl/common/util/validation.hpp, lines 19-73). *)
Definition assertGreaterOrEqual (value threshold : float) : bool := negb (gtb threshold value).
(** See above (common/include/mlrl/common/util/validation.hpp, lines 19-73). *)
Definition assertLess (value threshold : float) : bool := gtb threshold value.
(** See above (common/include/mlrl/common/util/validation.hpp, lines 19-73). *)
Definition assertLessOrEqual (value threshold : float) : bool := negb (gtb value threshold).

(** The same function (lines 36-43), where [T] is [uint32]. *)
Definition assertAtLeast (value threshold : Z) : bool := negb (value <? threshold).

(** common/include/mlrl/common/data/types.hpp, lines 61-64. *)
Definition isEqualToZero32 (x : float) : bool := isEqual x (Finite 0).

(** The parameters with floating point values. *)
Inductive floatParameter :=
| FeatureBinRatio | LabelBinRatio | InstancesWithoutReplacement | InstancesWithReplacement | StratifiedInstances | FeatureSampleSize
| OutputSampleSize | OutputRatio | HoldoutSetSize | MinSupport | MinImprovement | Shrinkage | RegularizationWeight | HeadThreshold
| HeadExponent | Beta | MEstimateM | KlnK | PeakMaxLift | PeakCurvature | CoverageThreshold.

(** Whether a value is accepted by the corresponding method:
    - common/src/mlrl/common/input/feature_binning_equal_frequency.cpp, lines 227-228, and feature_binning_equal_width.cpp, lines
      233-234 ([FeatureBinRatio])
    - boosting/src/mlrl/boosting/binning/label_binning_equal_width.cpp, lines 177-178 ([LabelBinRatio])
    - common/src/mlrl/common/sampling/instance_sampling_without_replacement.cpp, lines 165-166, and
      instance_sampling_with_replacement.cpp, lines 198-199
    - instance_sampling_stratified_output_wise.cpp, lines 132-133, and instance_sampling_stratified_example_wise.cpp, lines 133-134
    - feature_sampling_without_replacement.cpp, lines 109-110, and output_sampling_without_replacement.cpp, lines 78-79
    - boosting/src/mlrl/boosting/rule_evaluation/head_type_partial_fixed.cpp, lines 36-39 ([OutputRatio])
    - common/src/mlrl/common/sampling/partition_sampling_bi_random.cpp, lines 106-107, partition_sampling_bi_stratified_output_wise.cpp,
      lines 95-96, and partition_sampling_bi_stratified_example_wise.cpp, lines 94-95 ([HoldoutSetSize])
    - common/src/mlrl/common/rule_induction/rule_induction_top_down_greedy.cpp, lines 197-200, and
      rule_induction_top_down_beam_search.cpp, lines 476-479 ([MinSupport])
    - common/src/mlrl/common/stopping/global_pruning_pre.cpp, lines 280-281 ([MinImprovement])
    - boosting/src/mlrl/boosting/post_processing/shrinkage_constant.cpp, lines 65-66
    - boosting/src/mlrl/boosting/rule_evaluation/regularization_manual.cpp, line 14
    - boosting/src/mlrl/boosting/rule_evaluation/head_type_partial_dynamic.cpp, lines 20-21 and 31
    - seco/src/mlrl/seco/heuristics/heuristic_f_measure.cpp, line 75, and heuristic_m_estimate.cpp, line 78
    - seco/src/mlrl/seco/lift_functions/lift_function_kln.cpp, line 73, and lift_function_peak.cpp, lines 133 and 143
    - seco/src/mlrl/seco/stopping/stopping_criterion_coverage.cpp, line 70. *)
Definition accepts (p : floatParameter) (x : float) : bool :=
  let zero := Finite 0 in
  let one := Finite one in
  match p with
  | FeatureBinRatio => assertGreater x zero && assertLess x one
  | LabelBinRatio => assertGreater x zero && assertLess x one
  | InstancesWithoutReplacement => assertGreater x zero && assertLess x one
  | InstancesWithReplacement => assertGreater x zero && assertLessOrEqual x one
  | StratifiedInstances => assertGreater x zero && assertLess x one
  | FeatureSampleSize => assertGreaterOrEqual x zero && assertLess x one
  | OutputSampleSize => assertGreater x zero && assertLess x one
  | OutputRatio => if isEqualToZero32 x then true else assertGreater x zero && assertLess x one
  | HoldoutSetSize => assertGreater x zero && assertLess x one
  | MinSupport => if isEqualToZero32 x then true else assertGreater x zero && assertLess x one
  | MinImprovement => assertGreaterOrEqual x zero && assertLessOrEqual x one
  | Shrinkage => assertGreater x zero && assertLess x one
  | RegularizationWeight => assertGreater x zero
  | HeadThreshold => assertGreater x zero && assertLess x one
  | HeadExponent => assertGreaterOrEqual x one
  | Beta => assertGreaterOrEqual x zero
  | MEstimateM => assertGreaterOrEqual x zero
  | KlnK => assertGreater x zero
  | PeakMaxLift => assertGreaterOrEqual x one
  | PeakCurvature => assertGreater x zero
  | CoverageThreshold => assertGreaterOrEqual x zero
  end.

(** The configurations of a number of elements (bins, examples, features or outputs) in terms of a fraction, a minimum and a
    maximum. *)
Inductive sizeConfig :=
| FeatureBinning | LabelBinning | WithoutReplacement | WithReplacement | Stratified | FeatureSampling | OutputSampling | FixedHead.

Record sizes := mkSizes { sRatio : float; sMin : Z; sMax : Z }.

(** The initial values. Files as above, feature_binning_equal_frequency.cpp, line 220, feature_binning_equal_width.cpp, line 226,
    label_binning_equal_width.cpp, line 169, instance_sampling_without_replacement.cpp, line 158,
    instance_sampling_with_replacement.cpp, line 191, instance_sampling_stratified_output_wise.cpp, line 124,
    instance_sampling_stratified_example_wise.cpp, line 125, feature_sampling_without_replacement.cpp, line 102,
    output_sampling_without_replacement.cpp, line 71, head_type_partial_fixed.cpp, line 28. The values [0.33f], [0.66f] and [0.04f]
    are rounded to single precision. *)
Definition initialSizes (k : sizeConfig) : sizes :=
  match k with
  | FeatureBinning => mkSizes (Finite (11072963 * 2 ^ 1050)) 2 0
  | LabelBinning => mkSizes (Finite (10737418 * 2 ^ 1047)) 1 0
  | WithoutReplacement | WithReplacement | Stratified => mkSizes (Finite (11072963 * 2 ^ 1051)) 1 0
  | FeatureSampling => mkSizes (Finite 0) 1 0
  | OutputSampling => mkSizes (Finite (11072963 * 2 ^ 1050)) 1 1
  | FixedHead => mkSizes (Finite 0) 2 0
  end.

(** The parameter that corresponds to the fraction, see above for the files and lines. *)
Definition ratioParameter (k : sizeConfig) : floatParameter :=
  match k with
  | FeatureBinning => FeatureBinRatio
  | LabelBinning => LabelBinRatio
  | WithoutReplacement => InstancesWithoutReplacement
  | WithReplacement => InstancesWithReplacement
  | Stratified => StratifiedInstances
  | FeatureSampling => FeatureSampleSize
  | OutputSampling => OutputSampleSize
  | FixedHead => OutputRatio
  end.

(** The smallest value that is accepted as a minimum. feature_binning_equal_frequency.cpp, line 238, feature_binning_equal_width.cpp,
    line 244, label_binning_equal_width.cpp, line 188, instance_sampling_without_replacement.cpp, line 176,
    instance_sampling_with_replacement.cpp, line 209, instance_sampling_stratified_output_wise.cpp, line 144,
    instance_sampling_stratified_example_wise.cpp, line 145, feature_sampling_without_replacement.cpp, line 120,
    output_sampling_without_replacement.cpp, line 89, head_type_partial_fixed.cpp, line 50. *)
Definition leastMin (k : sizeConfig) : Z :=
  match k with FeatureBinning | FixedHead => 2 | _ => 1 end.

(** Calls of the methods of a configuration. *)
Inductive call := SetRatio (x : float) | SetMin (n : Z) | SetMax (n : Z).

(** Whether a call succeeds. The method that sets the maximum (feature_binning_equal_frequency.cpp, line 248, etc.) takes the current
    minimum into account, the one that sets the minimum does not take the maximum into account. *)
Definition acceptsCall (k : sizeConfig) (s : sizes) (c : call) : bool :=
  match c with
  | SetRatio x => accepts (ratioParameter k) x
  | SetMin n => assertAtLeast n (leastMin k)
  | SetMax n => if n =? 0 then true else assertAtLeast n (sMin s)
  end.

(** See above (feature_binning_equal_frequency.cpp, line 248). *)
Definition applyCall (k : sizeConfig) (s : sizes) (c : call) : sizes :=
  if acceptsCall k s c then
    match c with
    | SetRatio x => mkSizes x (sMin s) (sMax s)
    | SetMin n => mkSizes (sRatio s) n (sMax s)
    | SetMax n => mkSizes (sRatio s) (sMin s) n
    end
  else s.

(** A sequence of calls, some of which may fail. *)
Definition applyCalls (k : sizeConfig) (s : sizes) (calls : list call) : sizes := fold_left (applyCall k) calls s.

(** The number of elements, given the number of available ones and the fraction to be used if none is configured
    (head_type_partial_fixed.cpp, lines 10-24). feature_sampling_without_replacement.cpp, lines 152-156: if no fraction is configured,
    the number of features is [log2(n - 1) + 1], which is undefined if [n = 1] (the logarithm is infinite). *)
Definition numElements (k : sizeConfig) (fallback : float) (s : sizes) (n : Z) : option Z :=
  match k with
  | FeatureSampling =>
      if gtb (sRatio s) (Finite 0) then calculateBoundedFraction n (sRatio s) (sMin s) (sMax s)
      else if n =? 1 then None else Some (Z.log2 (n - 1) + 1)
  | FixedHead =>
      calculateBoundedFraction n (if gtb (sRatio s) (Finite 0) then sRatio s else fallback) (sMin s) (sMax s)
  | _ => calculateBoundedFraction n (sRatio s) (sMin s) (sMax s)
  end.

(** The parameters with integer values.
    - [BeamWidth], [MinCoverage], [BeamMaxConditions], [MaxHeadRefinements]: rule_induction_top_down_beam_search.cpp, lines 446, 466,
      490 and 501
    - [GreedyMaxConditions]: rule_induction_top_down_greedy.cpp, line 211 (as well as lines 187 and 221)
    - [NumIterations]: common/src/mlrl/common/post_optimization/post_optimization_sequential.cpp, line 173
    - [PostPruningMinRules], [PostPruningInterval]: common/src/mlrl/common/stopping/global_pruning_post.cpp, lines 122 and 132
    - [PrePruningMinRules], [NumPast], [NumCurrent]: global_pruning_pre.cpp, lines 230, 260 and 270
    - [StoppingMaxRules], [TimeLimit]: stopping_criterion_size.cpp, line 64, and stopping_criterion_time.cpp, line 82
    - [NumRetained]: feature_sampling_without_replacement.cpp, line 140
    - [NumThreads]: common/src/mlrl/common/multi_threading/multi_threading_manual.cpp, line 13
    - [PredictionMaxRules]: boosting/include/mlrl/boosting/prediction/predictor_score_common.hpp, line 240, etc.
    - [PeakLabel]: seco/src/mlrl/seco/lift_functions/lift_function_peak.cpp, line 123
    - [RandomState]: common/src/mlrl/common/random/rng.cpp, line 41. *)
Inductive intParameter :=
| BeamWidth | MinCoverage | BeamMaxConditions | GreedyMaxConditions | MaxHeadRefinements | NumIterations | PostPruningMinRules
| PostPruningInterval | PrePruningMinRules | NumPast | NumCurrent | StoppingMaxRules | TimeLimit | NumRetained | NumThreads
| PredictionMaxRules | PeakLabel | RandomState.

(** The files and lines are listed above, common/include/mlrl/common/util/validation.hpp, lines 19-73. *)
Definition acceptsInt (p : intParameter) (n : Z) : bool :=
  match p with
  | BeamWidth => assertAtLeast n 2
  | MinCoverage => assertAtLeast n 1
  | BeamMaxConditions => if n =? 0 then true else assertAtLeast n 2
  | GreedyMaxConditions => if n =? 0 then true else assertAtLeast n 1
  | MaxHeadRefinements => if n =? 0 then true else assertAtLeast n 1
  | NumIterations => assertAtLeast n 1
  | PostPruningMinRules => assertAtLeast n 1
  | PostPruningInterval => assertAtLeast n 1
  | PrePruningMinRules => assertAtLeast n 1
  | NumPast => assertAtLeast n 1
  | NumCurrent => assertAtLeast n 1
  | StoppingMaxRules => assertAtLeast n 1
  | TimeLimit => assertAtLeast n 1
  | NumRetained => assertAtLeast n 0
  | NumThreads => if n =? 0 then true else assertAtLeast n 1
  | PredictionMaxRules => if n =? 0 then true else assertAtLeast n 1
  | PeakLabel => if n =? 0 then true else assertAtLeast n 1
  | RandomState => assertAtLeast n 1
  end.
