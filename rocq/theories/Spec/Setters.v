(** * The documented ranges of parameters

    The values that are valid for a parameter according to the documentation of the methods in Python. *)

From Coq Require Import List Bool Ascii String ZArith.
From Verif Require Import Model.Options Model.PyConfig Model.Floats Model.Setters Spec.Floats.
Import ListNotations.
Open Scope Z_scope.

(** The type of the argument of a method. *)
Definition hasType (s : setter) (v : pyvalue) : Prop :=
  match cppType s, v with
  | Uint32, PyInt _ => True
  | Float32, PyFloat _ => True
  | Float64, PyFloat _ => True
  | _, _ => False
  end.

(** The value that should be stored: the given value or, in the case of single-precision values, the nearest one. *)
Definition stored (s : setter) (v : pyvalue) : cvalue :=
  match v with
  | PyInt n => CInt n
  | PyFloat x => CFloat (match cppType s with Float32 => toFloat32 x | _ => x end)
  end.

(** The variables of configurations that result from arbitrary calls of methods. *)
Inductive reachable (cls : pystr) : fields -> Prop :=
| reachable_new : reachable cls (newConfig cls)
| reachable_call : forall st s v st', reachable cls st -> In s setters -> setterClass s = cls -> hasType s v ->
    callSetter s st v = Returned st' -> reachable cls st'.

(** The value is stored and nothing else is changed. *)
Definition storedBy (s : setter) (st : fields) (v : pyvalue) (st' : fields) : Prop :=
  st' (setterField s) = stored s v /\ forall f, f <> setterField s -> st' f = st f.

(** Either the value is stored or an exception is raised. *)
Definition storedOrRejected (s : setter) (st : fields) (v : pyvalue) : Prop :=
  match callSetter s st v with
  | Returned st' => storedBy s st v st'
  | Raised => True
  | Terminated => False
  | UndefinedBehavior => False
  end.

(** The classes that provide access to the sampling of examples and outputs. *)
Definition samplingClasses : list pystr :=
  [str "ExampleWiseStratifiedInstanceSamplingConfig"; str "OutputWiseStratifiedInstanceSamplingConfig";
   str "InstanceSamplingWithReplacementConfig"; str "InstanceSamplingWithoutReplacementConfig";
   str "OutputSamplingWithoutReplacementConfig"].

(** Integers that are not too large and single-precision values. *)
Definition representable (s : setter) (v : pyvalue) : Prop :=
  match v with
  | PyInt n => n <= (if existsb (pyEq (setterClass s)) samplingClasses then 2 ^ 24 else 2 ^ 32 - 1)
  | PyFloat (Finite z) => cppType s = Float64 \/ isFloat32 z
  | PyFloat (Infinite _) => True
  | PyFloat NaN => False
  end.

(** Documented ranges. *)
Inductive docRange :=
| InOpenInterval            (* "must be in (0, 1)" *)
| InOpenIntervalOrZero      (* "must be in (0, 1) or 0" *)
| InClosedInterval          (* "must be in [0, 1]" *)
| AtLeastNumber (n : Z)
| AtLeastNumberOrZero (n : Z)
| GreaterThanZero
| AtLeastFieldOrZero (f : pystr)
| MultipleOfField (f : pystr).

(** Comparison of numbers, [Infinite false] is greater and [Infinite true] is less than all others. *)
Definition lt (x y : float) : Prop :=
  match x, y with
  | Finite a, Finite b => a < b
  | Finite _, Infinite negative => negative = false
  | Infinite negative, Finite _ => negative = true
  | Infinite m, Infinite n => m = true /\ n = false
  | _, _ => False
  end.

(** See above. *)
Definition le (x y : float) : Prop := lt x y \/ x = y.

(** A number as a floating point value. *)
Definition num (n : Z) : float := Finite (n * one).

(** Whether a value is in a range, given the variables of a configuration. *)
Definition inDocRange (r : docRange) (st : fields) (v : pyvalue) : Prop :=
  let x := pyNumber v in
  match r with
  | InOpenInterval => lt (num 0) x /\ lt x (num 1)
  | InOpenIntervalOrZero => x = num 0 \/ lt (num 0) x /\ lt x (num 1)
  | InClosedInterval => le (num 0) x /\ le x (num 1)
  | AtLeastNumber n => le (num n) x
  | AtLeastNumberOrZero n => x = num 0 \/ le (num n) x
  | GreaterThanZero => lt (num 0) x
  | AtLeastFieldOrZero f => x = num 0 \/ le (pyNumber (toPython (st f))) x
  | MultipleOfField f => exists k, 0 <= k /\ x = pyNumber (toPython (match st f with CInt m => CInt (k * m) | y => y end))
  end.

(** The documented ranges of the arguments of all methods, as stated in their docstrings (paths are relative to
    python/subprojects): boosting/mlrl/boosting/cython/head_type.pyx, lines 27-28, 49, 68-69, 102, 124;
    boosting/mlrl/boosting/cython/label_binning.pyx, lines 26-27, 48, 68-69; boosting/mlrl/boosting/cython/post_processor.pyx,
    line 24; boosting/mlrl/boosting/cython/regularization.pyx, line 25; common/mlrl/common/cython/feature_binning.pyx, lines
    26-27, 48, 68-69, 98-99, 120, 140-141; common/mlrl/common/cython/feature_sampling.pyx, lines 25-26, 47, 67-68, 89-90;
    common/mlrl/common/cython/instance_sampling.pyx, lines 26, 47, 67-68, 97, 118, 138-139, 167, 188, 208-209, 237, 258,
    278-279; common/mlrl/common/cython/multi_threading.pyx, line 26-27; common/mlrl/common/cython/output_sampling.pyx, lines 25,
    46, 66-67; common/mlrl/common/cython/partition_sampling.pyx, lines 26, 56, 85;
    common/mlrl/common/cython/post_optimization.pyx, line 25; common/mlrl/common/cython/rng.pyx, line 24;
    common/mlrl/common/cython/rule_induction.pyx, lines 24-25, 45-46, 69-70, 94-95, 144, 185-186, 206-207, 230-231, 255-256;
    common/mlrl/common/cython/stopping_criterion.pyx, lines 28, 53, 163, 183, 204, 223, 242-243, 263, 334;
    seco/mlrl/seco/cython/heuristic.pyx, lines 27, 54; seco/mlrl/seco/cython/lift_function.pyx, lines 25-26, 46, 66, 93;
    seco/mlrl/seco/cython/stopping_criterion.pyx, line 25. The docstring of the method [set_interval] does not mention a range,
    it is given in doc/user_guide/boosting/parameters.md, line 318. *)
Definition docTable : list (string * string * docRange) :=
  ([("FixedPartialHeadConfig", "set_output_ratio", InOpenIntervalOrZero);
   ("FixedPartialHeadConfig", "set_min_outputs", AtLeastNumber 2);
   ("FixedPartialHeadConfig", "set_max_outputs", AtLeastFieldOrZero (str "get_min_outputs"));
   ("DynamicPartialHeadConfig", "set_threshold", InOpenInterval);
   ("DynamicPartialHeadConfig", "set_exponent", AtLeastNumber 1);
   ("EqualWidthLabelBinningConfig", "set_bin_ratio", InOpenInterval);
   ("EqualWidthLabelBinningConfig", "set_min_bins", AtLeastNumber 1);
   ("EqualWidthLabelBinningConfig", "set_max_bins", AtLeastFieldOrZero (str "get_min_bins"));
   ("ConstantShrinkageConfig", "set_shrinkage", InOpenInterval);
   ("ManualRegularizationConfig", "set_regularization_weight", GreaterThanZero);
   ("EqualWidthFeatureBinningConfig", "set_bin_ratio", InOpenInterval);
   ("EqualWidthFeatureBinningConfig", "set_min_bins", AtLeastNumber 2);
   ("EqualWidthFeatureBinningConfig", "set_max_bins", AtLeastFieldOrZero (str "get_min_bins"));
   ("EqualFrequencyFeatureBinningConfig", "set_bin_ratio", InOpenInterval);
   ("EqualFrequencyFeatureBinningConfig", "set_min_bins", AtLeastNumber 2);
   ("EqualFrequencyFeatureBinningConfig", "set_max_bins", AtLeastFieldOrZero (str "get_min_bins"));
   ("FeatureSamplingWithoutReplacementConfig", "set_sample_size", InOpenIntervalOrZero);
   ("FeatureSamplingWithoutReplacementConfig", "set_min_samples", AtLeastNumber 1);
   ("FeatureSamplingWithoutReplacementConfig", "set_max_samples", AtLeastFieldOrZero (str "get_min_samples"));
   ("FeatureSamplingWithoutReplacementConfig", "set_num_retained", AtLeastNumber 0);
   ("ExampleWiseStratifiedInstanceSamplingConfig", "set_sample_size", InOpenInterval);
   ("ExampleWiseStratifiedInstanceSamplingConfig", "set_min_samples", AtLeastNumber 1);
   ("ExampleWiseStratifiedInstanceSamplingConfig", "set_max_samples", AtLeastFieldOrZero (str "get_min_samples"));
   ("OutputWiseStratifiedInstanceSamplingConfig", "set_sample_size", InOpenInterval);
   ("OutputWiseStratifiedInstanceSamplingConfig", "set_min_samples", AtLeastNumber 1);
   ("OutputWiseStratifiedInstanceSamplingConfig", "set_max_samples", AtLeastFieldOrZero (str "get_min_samples"));
   ("InstanceSamplingWithReplacementConfig", "set_sample_size", InOpenInterval);
   ("InstanceSamplingWithReplacementConfig", "set_min_samples", AtLeastNumber 1);
   ("InstanceSamplingWithReplacementConfig", "set_max_samples", AtLeastFieldOrZero (str "get_min_samples"));
   ("InstanceSamplingWithoutReplacementConfig", "set_sample_size", InOpenInterval);
   ("InstanceSamplingWithoutReplacementConfig", "set_min_samples", AtLeastNumber 1);
   ("InstanceSamplingWithoutReplacementConfig", "set_max_samples", AtLeastFieldOrZero (str "get_min_samples"));
   ("ManualMultiThreadingConfig", "set_num_preferred_threads", AtLeastNumberOrZero 1);
   ("OutputSamplingWithoutReplacementConfig", "set_sample_size", InOpenInterval);
   ("OutputSamplingWithoutReplacementConfig", "set_min_samples", AtLeastNumber 1);
   ("OutputSamplingWithoutReplacementConfig", "set_max_samples", AtLeastFieldOrZero (str "get_min_samples"));
   ("ExampleWiseStratifiedBiPartitionSamplingConfig", "set_holdout_set_size", InOpenInterval);
   ("OutputWiseStratifiedBiPartitionSamplingConfig", "set_holdout_set_size", InOpenInterval);
   ("RandomBiPartitionSamplingConfig", "set_holdout_set_size", InOpenInterval);
   ("SequentialPostOptimizationConfig", "set_num_iterations", AtLeastNumber 1);
   ("RNGConfig", "set_random_state", AtLeastNumber 1);
   ("GreedyTopDownRuleInductionConfig", "set_min_coverage", AtLeastNumber 1);
   ("GreedyTopDownRuleInductionConfig", "set_min_support", InClosedInterval);
   ("GreedyTopDownRuleInductionConfig", "set_max_conditions", AtLeastNumberOrZero 1);
   ("GreedyTopDownRuleInductionConfig", "set_max_head_refinements", AtLeastNumberOrZero 1);
   ("BeamSearchTopDownRuleInductionConfig", "set_beam_width", AtLeastNumber 2);
   ("BeamSearchTopDownRuleInductionConfig", "set_min_coverage", AtLeastNumber 1);
   ("BeamSearchTopDownRuleInductionConfig", "set_min_support", InClosedInterval);
   ("BeamSearchTopDownRuleInductionConfig", "set_max_conditions", AtLeastNumberOrZero 2);
   ("BeamSearchTopDownRuleInductionConfig", "set_max_head_refinements", AtLeastNumberOrZero 1);
   ("SizeStoppingCriterionConfig", "set_max_rules", AtLeastNumber 1);
   ("TimeStoppingCriterionConfig", "set_time_limit", AtLeastNumber 1);
   ("PrePruningConfig", "set_min_rules", AtLeastNumber 1);
   ("PrePruningConfig", "set_update_interval", AtLeastNumber 1);
   ("PrePruningConfig", "set_stop_interval", MultipleOfField (str "get_update_interval"));
   ("PrePruningConfig", "set_num_past", AtLeastNumber 1);
   ("PrePruningConfig", "set_num_current", AtLeastNumber 1);
   ("PrePruningConfig", "set_min_improvement", InClosedInterval);
   ("PostPruningConfig", "set_min_rules", AtLeastNumber 1);
   ("PostPruningConfig", "set_interval", AtLeastNumber 1);
   ("FMeasureConfig", "set_beta", AtLeastNumber 0);
   ("MEstimateConfig", "set_m", AtLeastNumber 0);
   ("PeakLiftFunctionConfig", "set_peak_label", AtLeastNumberOrZero 1);
   ("PeakLiftFunctionConfig", "set_max_lift", AtLeastNumber 1);
   ("PeakLiftFunctionConfig", "set_curvature", GreaterThanZero);
   ("KlnLiftFunctionConfig", "set_k", GreaterThanZero);
   ("CoverageStoppingCriterionConfig", "set_threshold", AtLeastNumber 0)])%string.

(** The documented range of the argument of a method. *)
Definition documentedRange (s : setter) (r : docRange) : Prop :=
  exists cls name, In (cls, name, r) docTable /\ setterClass s = str cls /\ setterName s = str name.

(** The fraction of examples to be covered by a rule, the value one is documented to be valid for. *)
Definition isMinSupport (s : setter) : Prop := setterName s = str "set_min_support".

(** The variables of a configuration after all options have been applied, given the options that have been specified. *)
Definition finalFields (cls : pystr) (l : list statement) (given : pystr -> option pyvalue) (st : fields) : Prop :=
  forall name k key getter, In (SetOption name k key getter) l -> k = GetInt \/ k = GetFloat ->
    exists s, In s setters /\ setterClass s = cls /\ setterName s = name /\ setterField s = getter /\
      st getter = match given key with Some v => stored s v | None => newConfig cls getter end.

(** All options that have been specified are valid, if those that have not been specified are assumed to have default values. *)
Definition optionsValid (cls : pystr) (l : list statement) (given : pystr -> option pyvalue) : Prop :=
  forall name k key getter v s, In (SetOption name k key getter) l -> given key = Some v ->
    In s setters -> setterClass s = cls -> setterName s = name ->
    hasType s v /\ representable s v /\
    exists r, documentedRange s r /\ ~ (isMinSupport s /\ pyNumber v = num 1) /\
      forall st, finalFields cls l given st -> inDocRange r st v.
