(** Definitions that are used for stating properties of parameters. *)
From Coq Require Import ZArith List.
From Verif Require Import Model.Floats Model.Parameters Spec.Floats.
Import ListNotations.
Open Scope Z_scope.

(** Ranges of values. A value that is not a number is not in any range. *)
Inductive range :=
| Between (low high : Z)          (* excluding both bounds *)
| BetweenOrLow (low high : Z)     (* excluding the upper bound *)
| BetweenInclusive (low high : Z) (* including both bounds *)
| GreaterThan (low : Z)
| AtLeast (low : Z).

Definition inRange (r : range) (x : float) : Prop :=
  match x with
  | NaN => False
  | Infinite negative =>
      match r with GreaterThan _ | AtLeast _ => negative = false | _ => False end
  | Finite z =>
      match r with
      | Between low high => low < z < high
      | BetweenOrLow low high => low <= z < high
      | BetweenInclusive low high => low <= z <= high
      | GreaterThan low => low < z
      | AtLeast low => low <= z
      end
  end.

(** The ranges that are given by the documentation of the methods. Paths are relative to cpp/subprojects/common/include/mlrl/common.
    - "Must be in (0, 1)": input/feature_binning_equal_frequency.hpp, line 32, input/feature_binning_equal_width.hpp, line 32,
      sampling/instance_sampling_without_replacement.hpp, line 31, sampling/instance_sampling_with_replacement.hpp, line 31,
      sampling/instance_sampling_stratified_example_wise.hpp, line 32, sampling/instance_sampling_stratified_output_wise.hpp, line 33,
      sampling/output_sampling_without_replacement.hpp, line 30, sampling/partition_sampling_bi_random.hpp, line 32,
      sampling/partition_sampling_bi_stratified_output_wise.hpp, line 32, sampling/partition_sampling_bi_stratified_example_wise.hpp,
      line 32, and, in cpp/subprojects/boosting/include/mlrl/boosting, binning/label_binning_equal_width.hpp, line 36,
      post_processing/shrinkage_constant.hpp, line 32, rule_evaluation/head_type_partial_dynamic.hpp, line 42
    - "Must be in (0, 1) or 0": sampling/feature_sampling_without_replacement.hpp, line 30,
      boosting/rule_evaluation/head_type_partial_fixed.hpp, line 39
    - "Must be in [0, 1]": rule_induction/rule_induction_top_down_beam_search.hpp, line 85, rule_induction_top_down_greedy.hpp, line 51,
      stopping/global_pruning_pre.hpp, line 186
    - "Must be greater than 0": boosting/rule_evaluation/regularization_manual.hpp, line 30, and, in
      cpp/subprojects/seco/include/mlrl/seco, lift_functions/lift_function_kln.hpp, line 33, lift_functions/lift_function_peak.hpp,
      line 67
    - "Must be at least 1": boosting/rule_evaluation/head_type_partial_dynamic.hpp, line 60, seco/lift_functions/lift_function_peak.hpp,
      line 50
    - "Must be at least 0": seco/heuristics/heuristic_f_measure.hpp, line 35, seco/heuristics/heuristic_m_estimate.hpp, line 35,
      seco/stopping/stopping_criterion_coverage.hpp, line 33. *)
Definition documented (p : floatParameter) : range :=
  match p with
  | FeatureBinRatio | LabelBinRatio | InstancesWithoutReplacement | InstancesWithReplacement | StratifiedInstances
  | OutputSampleSize | HoldoutSetSize | Shrinkage | HeadThreshold => Between 0 one
  | FeatureSampleSize | OutputRatio => BetweenOrLow 0 one
  | MinSupport | MinImprovement => BetweenInclusive 0 one
  | RegularizationWeight | KlnK | PeakCurvature => GreaterThan 0
  | HeadExponent | PeakMaxLift => AtLeast one
  | Beta | MEstimateM | CoverageThreshold => AtLeast 0
  end.

(** The smallest value other than zero that is accepted by the documentation, and whether zero is accepted, too. *)
Definition documentedInt (p : intParameter) (n : Z) : Prop :=
  match p with
  | BeamWidth => 2 <= n
  | BeamMaxConditions => n = 0 \/ 2 <= n
  | GreedyMaxConditions | MaxHeadRefinements | NumThreads | PredictionMaxRules | PeakLabel => n = 0 \/ 1 <= n
  | NumRetained => 0 <= n
  | _ => 1 <= n
  end.

(** A call that sets the minimum. *)
Definition setsMin (c : call) : Prop := match c with SetMin _ => True | _ => False end.

(** The arguments of a call are values of the types [float32] and [uint32]. *)
Definition representable (c : call) : Prop :=
  match c with SetRatio (Finite z) => isFloat32 z | SetRatio _ => True | SetMin n | SetMax n => 0 <= n < 2 ^ 32 end.

(** The smallest value for the minimum according to the documentation: input/feature_binning_equal_frequency.hpp, line 46,
    input/feature_binning_equal_width.hpp, line 46, boosting/rule_evaluation/head_type_partial_fixed.hpp, line 55 (2), and
    sampling/instance_sampling_without_replacement.hpp, line 47, etc. (1). *)
Definition documentedMin (k : sizeConfig) : Z := match k with FeatureBinning | FixedHead => 2 | _ => 1 end.

(** A positive fraction less than one is used, which is either configured or, in case of heads, computed automatically. *)
Definition usesFraction (k : sizeConfig) (fallback : float) (s : sizes) (f : Z) : Prop :=
  isFloat32 f /\ 0 < f < one /\
  (sRatio s = Finite f \/ (k = FixedHead /\ gtb (sRatio s) (Finite 0) = false /\ fallback = Finite f)).

(** All calls succeed. *)
Fixpoint allAccepted (k : sizeConfig) (s : sizes) (calls : list call) : Prop :=
  match calls with
  | [] => True
  | c :: calls => acceptsCall k s c = true /\ allAccepted k (applyCall k s c) calls
  end.
