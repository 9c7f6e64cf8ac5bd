(** * The parameters of the rule learners that can be used from Python

    Model of the classes that configure a rule learner according to the values of its parameters
    (common/mlrl/common/config.py, boosting/mlrl/boosting/config.py and seco/mlrl/seco/config.py) and of the classes
    that pass the configuration on to C++ (boosting/mlrl/boosting/cython/learner_boomer.pyx and
    seco/mlrl/seco/cython/learner_seco.pyx). All files are located in python/subprojects.

    Simplifications: A configuration is represented by the calls to C++ functions that are made in order to change it.
    Warnings are omitted. The value of an attribute is an arbitrary Python object, the conversion of which is represented
    by the functions of an [environment]. The same holds for the checks that are made by the setters. Command line
    arguments are not modelled. *)

From Coq Require Import List Bool Ascii String PeanoNat QArith.
From Verif Require Import Model.Options.
Import ListNotations.

(** The function that is used to retrieve an option (options.py, lines 104-171) or
    [__create_aggregation_function] (common/mlrl/common/config.py, lines 574-583). *)
Inductive kind := GetInt | GetFloat | GetBool | GetAggregation.

(** The argument of a setter: a value that has been specified as an option, the current value that is returned by a
    getter or a number. *)
Inductive argument :=
| Given (k : kind) (text : pystr)
| Current (getter : pystr)
| Value (q : Q).

(** A call to a C++ function that changes the configuration: a component is selected or one of its setters is called. *)
Inductive call :=
| CallUse (cpp : pystr)
| CallSet (cpp : pystr) (setter : pystr) (arg : argument).

(** The functions that are not modelled: [int(...)] and [float(...)], applied to strings, [str(...)], [int(...)] and
    [float(...)], applied to the value of an attribute, and the checks of the setters, given the preceding calls. *)
Record environment (A : Type) := mkEnvironment {
  isInt : pystr -> bool;
  isFloat : pystr -> bool;
  toStr : A -> pystr;
  toInt : A -> option Q;
  toFloat : A -> option Q;
  accepts : list call -> call -> bool
}.
Arguments isInt {A} _.
Arguments isFloat {A} _.
Arguments toStr {A} _.
Arguments toInt {A} _.
Arguments toFloat {A} _.
Arguments accepts {A} _.

(** A class that inherits from several mixins and provides methods that call C++ functions. *)
Record configClass := mkConfigClass {
  mixins : list pystr;
  methods : pydict pystr
}.

(** The statements that occur in a function [_configure]: either [conf = config.m()] or
    [conf.setter(options.get(key, conf.getter()))]. *)
Inductive statement :=
| UseMethod (m : pystr)
| SetOption (setter : pystr) (k : kind) (key : pystr) (getter : pystr).

(** The class [NominalParameter.Value] (common/mlrl/common/config.py, lines 113-137). *)
Record value := mkValue {
  valueName : pystr;
  valueMixin : pystr;
  valueOptions : list pystr
}.

(** The classes [NominalParameter] and [NumericalParameter] (common/mlrl/common/config.py, lines 107-258). The latter
    consists of the number that turns off a component, together with the mixin and the method that are needed for it, as
    well as the method and the setter that are used otherwise. *)
Inductive parameter :=
| Nominal (name : pystr) (values : list value) (configure : pystr -> list statement)
| Numerical (name : pystr) (k : kind) (mixin : pystr) (neutral : option (Q * pystr * pystr)) (use setter : pystr).

(** The attribute [name] (common/mlrl/common/config.py, lines 69-75). *)
Definition nameOf (p : parameter) : pystr :=
  match p with
  | Nominal name _ _ => name
  | Numerical name _ _ _ _ _ => name
  end.

(** The attribute [values] (common/mlrl/common/config.py, lines 139-155). *)
Definition valuesOf (p : parameter) : list value :=
  match p with
  | Nominal _ values _ => values
  | Numerical _ _ _ _ _ _ => []
  end.

(** The operator [|] for sets: elements of the second set are only added if the first set does not contain an equal
    element, where parameters are equal if their names are equal (common/mlrl/common/config.py, lines 100-104). *)
Definition setUnion (a b : list parameter) : list parameter :=
  a ++ filter (fun p => negb (pyIn (nameOf p) (map nameOf a))) b.

(** Whether a string can be converted (options.py, lines 19-33, 117-187 and common/mlrl/common/config.py, lines
    574-583). *)
Definition convertible {A : Type} (env : environment A) (k : kind) (text : pystr) : bool :=
  match k with
  | GetInt => isInt env text
  | GetFloat => isFloat env text
  | GetBool => match parseBoolean text with Ok _ => true | _ => false end
  | GetAggregation => match parseParam text [str "min"; str "max"; str "avg"] with Ok _ => true | _ => false end
  end.

(** The execution of the statements of a function [_configure], given the options that have been specified, the C++
    function that has been called last and the preceding calls. If no options are supported, the variable [options] is
    [None] and its methods cannot be called. *)
Fixpoint execute {A : Type} (env : environment A) (cls : configClass) (opts : option options) (conf : pystr)
         (before : list call) (l : list statement) : result (list call) :=
  match l with
  | [] => Ok before
  | UseMethod m :: l' =>
      match dictGet m (methods cls) with
      | None => AttributeError
      | Some cpp => execute env cls opts cpp (before ++ [CallUse cpp]) l'
      end
  | SetOption setter k key getter :: l' =>
      match opts with
      | None => AttributeError
      | Some o =>
          let? arg := match dictGet key o with
                      | Some text => if convertible env k text then Ok (Given k text) else ValueError
                      | None => Ok (Current getter)
                      end in
          let c := CallSet conf setter arg in
          if accepts env before c then execute env cls opts conf (before ++ [c]) l' else ValueError
      end
  end.

(** The function [NominalParameter.__get_supported_values] (common/mlrl/common/config.py, lines 167-180). *)
Definition supportedValues (cls : configClass) (values : list value) : pydict (list pystr) :=
  map (fun v => (valueName v, valueOptions v)) (filter (fun v => pyIn (valueMixin v) (mixins cls)) values).

(** The number of options that are supported (common/mlrl/common/config.py, lines 168-178). *)
Definition numOptions (supported : pydict (list pystr)) : nat :=
  fold_left (fun n s => (n + List.length (snd s))%nat) supported 0%nat.

(** The functions [NominalParameter.configure] (common/mlrl/common/config.py, lines 182-195) and
    [NumericalParameter.configure] (common/mlrl/common/config.py, lines 249-251). *)
Definition configure {A : Type} (env : environment A) (cls : configClass) (before : list call) (p : parameter) (v : A)
  : result (list call) :=
  match p with
  | Nominal _ values conf =>
      let supported := supportedValues cls values in
      if (0 <? List.length supported)%nat then
        let text := toStr env v in
        if (numOptions supported =? 0)%nat then
          let? x := parseParam text (map fst supported) in
          execute env cls None [] before (conf x)
        else
          let? xo := parseParamAndOptions text supported in
          execute env cls (Some (snd xo)) [] before (conf (fst xo))
      else Ok before
  | Numerical _ k mixin neutral use setter =>
      if pyIn mixin (mixins cls) then
        match (match k with GetInt => toInt env v | _ => toFloat env v end) with
        | None => ValueError
        | Some q =>
            let turnOff := match neutral with
                           | Some (n, noMixin, noUse) =>
                               if Qeq_bool q n && pyIn noMixin (mixins cls) then Some noUse else None
                           | None => None
                           end in
            match turnOff with
            | Some noUse => execute env cls None [] before [UseMethod noUse]
            | None =>
                match dictGet use (methods cls) with
                | None => AttributeError
                | Some cpp =>
                    let before' := before ++ [CallUse cpp] in
                    let c := CallSet cpp setter (Value q) in
                    if accepts env before' c then Ok (before' ++ [c]) else ValueError
                end
            end
        end
      else Ok before
  end.

(** The function [configure_rule_learner] (common/mlrl/common/config.py, lines 807-822). The attributes of the learner
    are given as a dictionary, where [None] represents the value [None]. The parameters are traversed in an arbitrary
    order. *)
Fixpoint configureRuleLearner {A : Type} (env : environment A) (cls : configClass) (learner : pydict (option A))
         (before : list call) (parameters : list parameter) : result (list call) :=
  match parameters with
  | [] => Ok before
  | p :: parameters' =>
      let? calls := match dictGet (nameOf p) learner with
                    | Some (Some v) => configure env cls before p v
                    | _ => Ok before
                    end in
      configureRuleLearner env cls learner calls parameters'
  end.

(** The class [RandomStateParameter] (common/mlrl/common/config.py, lines 282-293). *)
Definition randomStateParameter : parameter :=
  Numerical (str "random_state") GetInt (str "RNGMixin")
    (None) (str "use_rng") (str "set_random_state").

(** The function [RuleInductionParameter._configure] (common/mlrl/common/config.py, lines 334-354). *)
Definition ruleInductionParameterConfigure (value : pystr) : list statement :=
  if pyEq value (str "top-down-greedy") then
    [UseMethod (str "use_greedy_top_down_rule_induction");
     SetOption (str "set_min_coverage") GetInt (str "min_coverage") (str "get_min_coverage");
     SetOption (str "set_min_support") GetFloat (str "min_support") (str "get_min_support");
     SetOption (str "set_max_conditions") GetInt (str "max_conditions") (str "get_max_conditions");
     SetOption (str "set_max_head_refinements") GetInt (str "max_head_refinements") (str "get_max_head_refinements");
     SetOption (str "set_recalculate_predictions") GetBool (str "recalculate_predictions")
        (str "are_predictions_recalculated")]
  else if pyEq value (str "top-down-beam-search") then
    [UseMethod (str "use_beam_search_top_down_rule_induction");
     SetOption (str "set_min_coverage") GetInt (str "min_coverage") (str "get_min_coverage");
     SetOption (str "set_min_support") GetFloat (str "min_support") (str "get_min_support");
     SetOption (str "set_max_conditions") GetInt (str "max_conditions") (str "get_max_conditions");
     SetOption (str "set_max_head_refinements") GetInt (str "max_head_refinements") (str "get_max_head_refinements");
     SetOption (str "set_recalculate_predictions") GetBool (str "recalculate_predictions")
        (str "are_predictions_recalculated");
     SetOption (str "set_beam_width") GetInt (str "beam_width") (str "get_beam_width");
     SetOption (str "set_resample_features") GetBool (str "resample_features") (str "are_features_resampled")]
  else [].

(** The class [RuleInductionParameter] (common/mlrl/common/config.py, lines 317-332). *)
Definition ruleInductionParameter : parameter :=
  Nominal (str "rule_induction")
    ([mkValue (str "top-down-greedy") (str "GreedyTopDownRuleInductionMixin")
       [str "min_coverage"; str "min_support"; str "max_conditions"; str "max_head_refinements";
        str "recalculate_predictions"];
     mkValue (str "top-down-beam-search") (str "BeamSearchTopDownRuleInductionMixin")
       [str "min_coverage"; str "min_support"; str "max_conditions"; str "max_head_refinements";
        str "recalculate_predictions"; str "beam_width"; str "resample_features"]])
    ruleInductionParameterConfigure.

(** The function [FeatureBinningParameter._configure] (common/mlrl/common/config.py, lines 372-384). *)
Definition featureBinningParameterConfigure (value : pystr) : list statement :=
  if pyEq value (str "none") then
    [UseMethod (str "use_no_feature_binning")]
  else if pyEq value (str "equal-frequency") then
    [UseMethod (str "use_equal_frequency_feature_binning");
     SetOption (str "set_bin_ratio") GetFloat (str "bin_ratio") (str "get_bin_ratio");
     SetOption (str "set_min_bins") GetInt (str "min_bins") (str "get_min_bins");
     SetOption (str "set_max_bins") GetInt (str "max_bins") (str "get_max_bins")]
  else if pyEq value (str "equal-width") then
    [UseMethod (str "use_equal_width_feature_binning");
     SetOption (str "set_bin_ratio") GetFloat (str "bin_ratio") (str "get_bin_ratio");
     SetOption (str "set_min_bins") GetInt (str "min_bins") (str "get_min_bins");
     SetOption (str "set_max_bins") GetInt (str "max_bins") (str "get_max_bins")]
  else [].

(** The class [FeatureBinningParameter] (common/mlrl/common/config.py, lines 362-370). *)
Definition featureBinningParameter : parameter :=
  Nominal (str "feature_binning")
    ([mkValue (str "none") (str "NoFeatureBinningMixin") [];
     mkValue (str "equal-frequency") (str "EqualFrequencyFeatureBinningMixin")
       [str "bin_ratio"; str "min_bins"; str "max_bins"];
     mkValue (str "equal-width") (str "EqualWidthFeatureBinningMixin")
       [str "bin_ratio"; str "min_bins"; str "max_bins"]])
    featureBinningParameterConfigure.

(** The function [OutputSamplingParameter._configure] (common/mlrl/common/config.py, lines 402-411). *)
Definition outputSamplingParameterConfigure (value : pystr) : list statement :=
  if pyEq value (str "none") then
    [UseMethod (str "use_no_output_sampling")]
  else if pyEq value (str "without-replacement") then
    [UseMethod (str "use_output_sampling_without_replacement");
     SetOption (str "set_sample_size") GetFloat (str "sample_size") (str "get_sample_size");
     SetOption (str "set_min_samples") GetInt (str "min_samples") (str "get_min_samples");
     SetOption (str "set_max_samples") GetInt (str "max_samples") (str "get_max_samples")]
  else if pyEq value (str "round-robin") then
    [UseMethod (str "use_round_robin_output_sampling")]
  else [].

(** The class [OutputSamplingParameter] (common/mlrl/common/config.py, lines 394-400). *)
Definition outputSamplingParameter : parameter :=
  Nominal (str "output_sampling")
    ([mkValue (str "none") (str "NoFeatureSamplingMixin") [];
     mkValue (str "without-replacement") (str "FeatureSamplingWithoutReplacementMixin")
       [str "sample_size"; str "min_samples"; str "max_samples"];
     mkValue (str "round-robin") (str "RoundRobinOutputSamplingMixin") []])
    outputSamplingParameterConfigure.

(** The function [InstanceSamplingParameter._configure] (common/mlrl/common/config.py, lines 436-458). *)
Definition instanceSamplingParameterConfigure (value : pystr) : list statement :=
  if pyEq value (str "none") then
    [UseMethod (str "use_no_instance_sampling")]
  else if pyEq value (str "with-replacement") then
    [UseMethod (str "use_instance_sampling_with_replacement");
     SetOption (str "set_sample_size") GetFloat (str "sample_size") (str "get_sample_size");
     SetOption (str "set_min_samples") GetInt (str "min_samples") (str "get_min_samples");
     SetOption (str "set_max_samples") GetInt (str "max_samples") (str "get_max_samples")]
  else if pyEq value (str "without-replacement") then
    [UseMethod (str "use_instance_sampling_without_replacement");
     SetOption (str "set_sample_size") GetFloat (str "sample_size") (str "get_sample_size");
     SetOption (str "set_min_samples") GetInt (str "min_samples") (str "get_min_samples");
     SetOption (str "set_max_samples") GetInt (str "max_samples") (str "get_max_samples")]
  else if pyEq value (str "stratified-output-wise") then
    [UseMethod (str "use_output_wise_stratified_instance_sampling");
     SetOption (str "set_sample_size") GetFloat (str "sample_size") (str "get_sample_size");
     SetOption (str "set_min_samples") GetInt (str "min_samples") (str "get_min_samples");
     SetOption (str "set_max_samples") GetInt (str "max_samples") (str "get_max_samples")]
  else if pyEq value (str "stratified-example-wise") then
    [UseMethod (str "use_example_wise_stratified_instance_sampling");
     SetOption (str "set_sample_size") GetFloat (str "sample_size") (str "get_sample_size");
     SetOption (str "set_min_samples") GetInt (str "min_samples") (str "get_min_samples");
     SetOption (str "set_max_samples") GetInt (str "max_samples") (str "get_max_samples")]
  else [].

(** The class [InstanceSamplingParameter] (common/mlrl/common/config.py, lines 419-434). *)
Definition instanceSamplingParameter : parameter :=
  Nominal (str "instance_sampling")
    ([mkValue (str "none") (str "NoInstanceSamplingMixin") [];
     mkValue (str "with-replacement") (str "InstanceSamplingWithReplacementMixin")
       [str "sample_size"; str "min_samples"; str "max_samples"];
     mkValue (str "without-replacement") (str "InstanceSamplingWithoutReplacementMixin")
       [str "sample_size"; str "min_samples"; str "max_samples"];
     mkValue (str "stratified-output-wise") (str "OutputWiseStratifiedInstanceSamplingMixin")
       [str "sample_size"; str "min_samples"; str "max_samples"];
     mkValue (str "stratified-example-wise") (str "ExampleWiseStratifiedInstanceSamplingMixin")
       [str "sample_size"; str "min_samples"; str "max_samples"]])
    instanceSamplingParameterConfigure.

(** The function [FeatureSamplingParameter._configure] (common/mlrl/common/config.py, lines 476-484). *)
Definition featureSamplingParameterConfigure (value : pystr) : list statement :=
  if pyEq value (str "none") then
    [UseMethod (str "use_no_feature_sampling")]
  else if pyEq value (str "without-replacement") then
    [UseMethod (str "use_feature_sampling_without_replacement");
     SetOption (str "set_sample_size") GetFloat (str "sample_size") (str "get_sample_size");
     SetOption (str "set_min_samples") GetInt (str "min_samples") (str "get_min_samples");
     SetOption (str "set_max_samples") GetInt (str "max_samples") (str "get_max_samples");
     SetOption (str "set_num_retained") GetInt (str "num_retained") (str "get_num_retained")]
  else [].

(** The class [FeatureSamplingParameter] (common/mlrl/common/config.py, lines 468-474). *)
Definition featureSamplingParameter : parameter :=
  Nominal (str "feature_sampling")
    ([mkValue (str "none") (str "NoFeatureSamplingMixin") [];
     mkValue (str "without-replacement") (str "FeatureSamplingWithoutReplacementMixin")
       [str "sample_size"; str "min_samples"; str "max_samples"; str "num_retained"]])
    featureSamplingParameterConfigure.

(** The function [PartitionSamplingParameter._configure] (common/mlrl/common/config.py, lines 509-520). *)
Definition partitionSamplingParameterConfigure (value : pystr) : list statement :=
  if pyEq value (str "none") then
    [UseMethod (str "use_no_partition_sampling")]
  else if pyEq value (str "random") then
    [UseMethod (str "use_random_bi_partition_sampling");
     SetOption (str "set_holdout_set_size") GetFloat (str "holdout_set_size") (str "get_holdout_set_size")]
  else if pyEq value (str "stratified-output-wise") then
    [UseMethod (str "use_output_wise_stratified_bi_partition_sampling");
     SetOption (str "set_holdout_set_size") GetFloat (str "holdout_set_size") (str "get_holdout_set_size")]
  else if pyEq value (str "stratified-example-wise") then
    [UseMethod (str "use_example_wise_stratified_bi_partition_sampling");
     SetOption (str "set_holdout_set_size") GetFloat (str "holdout_set_size") (str "get_holdout_set_size")]
  else [].

(** The class [PartitionSamplingParameter] (common/mlrl/common/config.py, lines 496-507). *)
Definition partitionSamplingParameter : parameter :=
  Nominal (str "holdout")
    ([mkValue (str "none") (str "NoPartitionSamplingMixin") [];
     mkValue (str "random") (str "RandomBiPartitionSamplingMixin") [str "holdout_set_size"];
     mkValue (str "stratified-output-wise") (str "OutputWiseStratifiedBiPartitionSamplingMixin")
       [str "holdout_set_size"];
     mkValue (str "stratified-example-wise") (str "ExampleWiseStratifiedBiPartitionSamplingMixin")
       [str "holdout_set_size"]])
    partitionSamplingParameterConfigure.

(** The function [GlobalPruningParameter._configure] (common/mlrl/common/config.py, lines 585-609). *)
Definition globalPruningParameterConfigure (value : pystr) : list statement :=
  if pyEq value (str "none") then
    [UseMethod (str "use_no_global_pruning")]
  else if pyEq value (str "post-pruning") then
    [UseMethod (str "use_global_post_pruning");
     SetOption (str "set_use_holdout_set") GetBool (str "use_holdout_set") (str "is_holdout_set_used");
     SetOption (str "set_remove_unused_rules") GetBool (str "remove_unused_rules") (str "is_remove_unused_rules");
     SetOption (str "set_min_rules") GetInt (str "min_rules") (str "get_min_rules");
     SetOption (str "set_interval") GetInt (str "interval") (str "get_interval")]
  else if pyEq value (str "pre-pruning") then
    [UseMethod (str "use_global_pre_pruning");
     SetOption (str "set_use_holdout_set") GetBool (str "use_holdout_set") (str "is_holdout_set_used");
     SetOption (str "set_remove_unused_rules") GetBool (str "remove_unused_rules") (str "is_remove_unused_rules");
     SetOption (str "set_min_rules") GetInt (str "min_rules") (str "get_min_rules");
     SetOption (str "set_aggregation_function") GetAggregation (str "aggregation") (str "get_aggregation_function");
     SetOption (str "set_update_interval") GetInt (str "update_interval") (str "get_update_interval");
     SetOption (str "set_stop_interval") GetInt (str "stop_interval") (str "get_stop_interval");
     SetOption (str "set_num_past") GetInt (str "num_past") (str "get_num_past");
     SetOption (str "set_num_current") GetInt (str "num_recent") (str "get_num_current");
     SetOption (str "set_min_improvement") GetFloat (str "min_improvement") (str "get_min_improvement")]
  else [].

(** The class [GlobalPruningParameter] (common/mlrl/common/config.py, lines 556-572). *)
Definition globalPruningParameter : parameter :=
  Nominal (str "global_pruning")
    ([mkValue (str "none") (str "NoGlobalPruningMixin") [];
     mkValue (str "post-pruning") (str "PostPruningMixin")
       [str "use_holdout_set"; str "remove_unused_rules"; str "min_rules"; str "interval"];
     mkValue (str "pre-pruning") (str "PrePruningMixin")
       [str "use_holdout_set"; str "remove_unused_rules"; str "min_rules"; str "aggregation"; str "update_interval";
        str "stop_interval"; str "num_past"; str "num_recent"; str "min_improvement"]])
    globalPruningParameterConfigure.

(** The function [RulePruningParameter._configure] (common/mlrl/common/config.py, lines 625-629). *)
Definition rulePruningParameterConfigure (value : pystr) : list statement :=
  if pyEq value (str "none") then
    [UseMethod (str "use_no_rule_pruning")]
  else if pyEq value (str "irep") then
    [UseMethod (str "use_irep_rule_pruning")]
  else [].

(** The class [RulePruningParameter] (common/mlrl/common/config.py, lines 619-623). *)
Definition rulePruningParameter : parameter :=
  Nominal (str "rule_pruning")
    ([mkValue (str "none") (str "NoRulePruningMixin") [];
     mkValue (str "irep") (str "IrepRulePruningMixin") []])
    rulePruningParameterConfigure.

(** The function [ParallelRuleRefinementParameter._configure] (common/mlrl/common/config.py, lines 646-658). *)
Definition parallelRuleRefinementParameterConfigure (value : pystr) : list statement :=
  if pyEq value (str "false") then
    [UseMethod (str "use_no_parallel_rule_refinement")]
  else
    [UseMethod (str "use_parallel_rule_refinement");
     SetOption (str "set_num_preferred_threads") GetInt (str "num_preferred_threads")
        (str "get_num_preferred_threads")].

(** The class [ParallelRuleRefinementParameter] (common/mlrl/common/config.py, lines 638-644). *)
Definition parallelRuleRefinementParameter : parameter :=
  Nominal (str "parallel_rule_refinement")
    ([mkValue (str "false") (str "NoParallelRuleRefinementMixin") [];
     mkValue (str "true") (str "ParallelRuleRefinementMixin") [str "num_preferred_threads"]])
    parallelRuleRefinementParameterConfigure.

(** The function [ParallelStatisticUpdateParameter._configure] (common/mlrl/common/config.py, lines 676-688). *)
Definition parallelStatisticUpdateParameterConfigure (value : pystr) : list statement :=
  if pyEq value (str "false") then
    [UseMethod (str "use_no_parallel_statistic_update")]
  else
    [UseMethod (str "use_parallel_statistic_update");
     SetOption (str "set_num_preferred_threads") GetInt (str "num_preferred_threads")
        (str "get_num_preferred_threads")].

(** The class [ParallelStatisticUpdateParameter] (common/mlrl/common/config.py, lines 667-674). *)
Definition parallelStatisticUpdateParameter : parameter :=
  Nominal (str "parallel_statistic_update")
    ([mkValue (str "false") (str "NoParallelStatisticUpdateMixin") [];
     mkValue (str "true") (str "ParallelStatisticUpdateMixin") [str "num_preferred_threads"]])
    parallelStatisticUpdateParameterConfigure.

(** The function [ParallelPredictionParameter._configure] (common/mlrl/common/config.py, lines 705-717). *)
Definition parallelPredictionParameterConfigure (value : pystr) : list statement :=
  if pyEq value (str "false") then
    [UseMethod (str "use_no_parallel_prediction")]
  else
    [UseMethod (str "use_parallel_prediction");
     SetOption (str "set_num_preferred_threads") GetInt (str "num_preferred_threads")
        (str "get_num_preferred_threads")].

(** The class [ParallelPredictionParameter] (common/mlrl/common/config.py, lines 697-703). *)
Definition parallelPredictionParameter : parameter :=
  Nominal (str "parallel_prediction")
    ([mkValue (str "false") (str "NoParallelPredictionMixin") [];
     mkValue (str "true") (str "ParallelPredictionMixin") [str "num_preferred_threads"]])
    parallelPredictionParameterConfigure.

(** The class [SizeStoppingCriterionParameter] (common/mlrl/common/config.py, lines 720-736). *)
Definition sizeStoppingCriterionParameter : parameter :=
  Numerical (str "max_rules") GetInt (str "SizeStoppingCriterionMixin")
    (Some (0%Q, str "NoSizeStoppingCriterionMixin", str "use_no_size_stopping_criterion"))
    (str "use_size_stopping_criterion") (str "set_max_rules").

(** The class [TimeStoppingCriterionParameter] (common/mlrl/common/config.py, lines 739-755). *)
Definition timeStoppingCriterionParameter : parameter :=
  Numerical (str "time_limit") GetInt (str "TimeStoppingCriterionMixin")
    (Some (0%Q, str "NoTimeStoppingCriterionMixin", str "use_no_time_stopping_criterion"))
    (str "use_time_stopping_criterion") (str "set_time_limit").

(** The function [SequentialPostOptimizationParameter._configure] (common/mlrl/common/config.py, lines 778-785). *)
Definition sequentialPostOptimizationParameterConfigure (value : pystr) : list statement :=
  if pyEq value (str "false") then
    [UseMethod (str "use_no_sequential_post_optimization")]
  else if pyEq value (str "true") then
    [UseMethod (str "use_sequential_post_optimization");
     SetOption (str "set_num_iterations") GetInt (str "num_iterations") (str "get_num_iterations");
     SetOption (str "set_refine_heads") GetBool (str "refine_heads") (str "are_heads_refined");
     SetOption (str "set_resample_features") GetBool (str "resample_features") (str "are_features_resampled")]
  else [].

(** The class [SequentialPostOptimizationParameter] (common/mlrl/common/config.py, lines 768-776). *)
Definition sequentialPostOptimizationParameter : parameter :=
  Nominal (str "sequential_post_optimization")
    ([mkValue (str "false") (str "NoSequentialPostOptimizationMixin") [];
     mkValue (str "true") (str "SequentialPostOptimizationMixin")
       [str "num_iterations"; str "refine_heads"; str "resample_features"]])
    sequentialPostOptimizationParameterConfigure.

(** The function [ExtendedPartitionSamplingParameter._configure] (boosting/mlrl/boosting/config.py, lines 48-52). *)
Definition extendedPartitionSamplingParameterConfigure (value : pystr) : list statement :=
  if pyEq value (str "auto") then
    [UseMethod (str "use_automatic_partition_sampling")]
  else
    partitionSamplingParameterConfigure value.

(** The class [ExtendedPartitionSamplingParameter] (boosting/mlrl/boosting/config.py, lines 41-46). *)
Definition extendedPartitionSamplingParameter : parameter :=
  Nominal (str "holdout")
    (valuesOf partitionSamplingParameter ++ [mkValue (str "auto") (str "AutomaticPartitionSamplingMixin") []])
    extendedPartitionSamplingParameterConfigure.

(** The function [ExtendedFeatureBinningParameter._configure] (boosting/mlrl/boosting/config.py, lines 67-71). *)
Definition extendedFeatureBinningParameterConfigure (value : pystr) : list statement :=
  if pyEq value (str "auto") then
    [UseMethod (str "use_automatic_feature_binning")]
  else
    featureBinningParameterConfigure value.

(** The class [ExtendedFeatureBinningParameter] (boosting/mlrl/boosting/config.py, lines 60-65). *)
Definition extendedFeatureBinningParameter : parameter :=
  Nominal (str "feature_binning")
    (valuesOf featureBinningParameter ++ [mkValue (str "auto") (str "AutomaticFeatureBinningMixin") []])
    extendedFeatureBinningParameterConfigure.

(** The function [ExtendedParallelRuleRefinementParameter._configure] (boosting/mlrl/boosting/config.py, lines
    86-90). *)
Definition extendedParallelRuleRefinementParameterConfigure (value : pystr) : list statement :=
  if pyEq value (str "auto") then
    [UseMethod (str "use_automatic_parallel_rule_refinement")]
  else
    parallelRuleRefinementParameterConfigure value.

(** The class [ExtendedParallelRuleRefinementParameter] (boosting/mlrl/boosting/config.py, lines 79-84). *)
Definition extendedParallelRuleRefinementParameter : parameter :=
  Nominal (str "parallel_rule_refinement")
    (valuesOf parallelRuleRefinementParameter ++ [mkValue (str "auto") (str "AutomaticParallelRuleRefinementMixin")
       []])
    extendedParallelRuleRefinementParameterConfigure.

(** The function [ExtendedParallelStatisticUpdateParameter._configure] (boosting/mlrl/boosting/config.py, lines
    105-109). *)
Definition extendedParallelStatisticUpdateParameterConfigure (value : pystr) : list statement :=
  if pyEq value (str "auto") then
    [UseMethod (str "use_automatic_parallel_statistic_update")]
  else
    parallelStatisticUpdateParameterConfigure value.

(** The class [ExtendedParallelStatisticUpdateParameter] (boosting/mlrl/boosting/config.py, lines 98-103). *)
Definition extendedParallelStatisticUpdateParameter : parameter :=
  Nominal (str "parallel_statistic_update")
    (valuesOf parallelStatisticUpdateParameter ++ [mkValue (str "auto") (str "AutomaticParallelStatisticUpdateMixin")
       []])
    extendedParallelStatisticUpdateParameterConfigure.

(** The class [ShrinkageParameter] (boosting/mlrl/boosting/config.py, lines 112-127). *)
Definition shrinkageParameter : parameter :=
  Numerical (str "shrinkage") GetFloat (str "ConstantShrinkageMixin")
    (Some (1%Q, str "NoPostProcessorMixin", str "use_no_post_processor"))
    (str "use_constant_shrinkage_post_processor") (str "set_shrinkage").

(** The class [L1RegularizationParameter] (boosting/mlrl/boosting/config.py, lines 130-144). *)
Definition l1RegularizationParameter : parameter :=
  Numerical (str "l1_regularization_weight") GetFloat (str "L1RegularizationMixin")
    (Some (0%Q, str "NoL1RegularizationMixin", str "use_no_l1_regularization"))
    (str "use_l1_regularization") (str "set_regularization_weight").

(** The class [L2RegularizationParameter] (boosting/mlrl/boosting/config.py, lines 147-161). *)
Definition l2RegularizationParameter : parameter :=
  Numerical (str "l2_regularization_weight") GetFloat (str "L2RegularizationMixin")
    (Some (0%Q, str "NoL2RegularizationMixin", str "use_no_l2_regularization"))
    (str "use_l2_regularization") (str "set_regularization_weight").

(** The function [DefaultRuleParameter._configure] (boosting/mlrl/boosting/config.py, lines 175-181). *)
Definition defaultRuleParameterConfigure (value : pystr) : list statement :=
  if pyEq value (str "false") then
    [UseMethod (str "use_no_default_rule")]
  else if pyEq value (str "true") then
    [UseMethod (str "use_default_rule")]
  else if pyEq value (str "auto") then
    [UseMethod (str "use_automatic_default_rule")]
  else [].

(** The class [DefaultRuleParameter] (boosting/mlrl/boosting/config.py, lines 169-173). *)
Definition defaultRuleParameter : parameter :=
  Nominal (str "default_rule")
    ([mkValue (str "false") (str "NoDefaultRuleMixin") [];
     mkValue (str "true") (str "DefaultRuleMixin") [];
     mkValue (str "auto") (str "AutomaticDefaultRuleMixin") []])
    defaultRuleParameterConfigure.

(** The function [StatisticFormatParameter._configure] (boosting/mlrl/boosting/config.py, lines 205-211). *)
Definition statisticFormatParameterConfigure (value : pystr) : list statement :=
  if pyEq value (str "dense") then
    [UseMethod (str "use_dense_statistics")]
  else if pyEq value (str "sparse") then
    [UseMethod (str "use_sparse_statistics")]
  else if pyEq value (str "auto") then
    [UseMethod (str "use_automatic_statistics")]
  else [].

(** The class [StatisticFormatParameter] (boosting/mlrl/boosting/config.py, lines 193-203). *)
Definition statisticFormatParameter : parameter :=
  Nominal (str "statistic_format")
    ([mkValue (str "dense") (str "DenseStatisticsMixin") [];
     mkValue (str "sparse") (str "SparseStatisticsMixin") [];
     mkValue (str "auto") (str "AutomaticStatisticsMixin") []])
    statisticFormatParameterConfigure.

(** The function [LabelBinningParameter._configure] (boosting/mlrl/boosting/config.py, lines 232-241). *)
Definition labelBinningParameterConfigure (value : pystr) : list statement :=
  if pyEq value (str "none") then
    [UseMethod (str "use_no_label_binning")]
  else if pyEq value (str "equal-width") then
    [UseMethod (str "use_equal_width_label_binning");
     SetOption (str "set_bin_ratio") GetFloat (str "bin_ratio") (str "get_bin_ratio");
     SetOption (str "set_min_bins") GetInt (str "min_bins") (str "get_min_bins");
     SetOption (str "set_max_bins") GetInt (str "max_bins") (str "get_max_bins")]
  else if pyEq value (str "auto") then
    [UseMethod (str "use_automatic_label_binning")]
  else [].

(** The class [LabelBinningParameter] (boosting/mlrl/boosting/config.py, lines 219-230). *)
Definition labelBinningParameter : parameter :=
  Nominal (str "label_binning")
    ([mkValue (str "none") (str "NoLabelBinningMixin") [];
     mkValue (str "equal-width") (str "EqualWidthLabelBinningMixin")
       [str "bin_ratio"; str "min_bins"; str "max_bins"];
     mkValue (str "auto") (str "AutomaticLabelBinningMixin") []])
    labelBinningParameterConfigure.

(** The function [RegressionLossParameter._configure] (boosting/mlrl/boosting/config.py, lines 258-262). *)
Definition regressionLossParameterConfigure (value : pystr) : list statement :=
  if pyEq value (str "squared-error-decomposable") then
    [UseMethod (str "use_decomposable_squared_error_loss")]
  else if pyEq value (str "squared-error-non-decomposable") then
    [UseMethod (str "use_non_decomposable_squared_error_loss")]
  else [].

(** The class [RegressionLossParameter] (boosting/mlrl/boosting/config.py, lines 253-256). *)
Definition regressionLossParameter : parameter :=
  Nominal (str "loss")
    ([mkValue (str "squared-error-decomposable") (str "DecomposableSquaredErrorLossMixin") [];
     mkValue (str "squared-error-non-decomposable") (str "NonDecomposableSquaredErrorLossMixin") []])
    regressionLossParameterConfigure.

(** The function [ClassificationLossParameter._configure] (boosting/mlrl/boosting/config.py, lines 285-295). *)
Definition classificationLossParameterConfigure (value : pystr) : list statement :=
  regressionLossParameterConfigure value ++
  (if pyEq value (str "logistic-decomposable") then
    [UseMethod (str "use_decomposable_logistic_loss")]
  else if pyEq value (str "logistic-non-decomposable") then
    [UseMethod (str "use_non_decomposable_logistic_loss")]
  else if pyEq value (str "squared-hinge-decomposable") then
    [UseMethod (str "use_decomposable_squared_hinge_loss")]
  else if pyEq value (str "squared-hinge-non-decomposable") then
    [UseMethod (str "use_non_decomposable_squared_hinge_loss")]
  else []).

(** The class [ClassificationLossParameter] (boosting/mlrl/boosting/config.py, lines 278-283). *)
Definition classificationLossParameter : parameter :=
  Nominal (str "loss")
    (valuesOf regressionLossParameter ++ [mkValue (str "logistic-decomposable") (str "DecomposableLogisticLossMixin")
       [];
     mkValue (str "logistic-non-decomposable") (str "NonDecomposableLogisticLossMixin") [];
     mkValue (str "squared-hinge-decomposable") (str "DecomposableSquaredHingeLossMixin") [];
     mkValue (str "squared-hinge-non-decomposable") (str "NonDecomposableSquaredHingeLossMixin") []])
    classificationLossParameterConfigure.

(** The function [HeadTypeParameter._configure] (boosting/mlrl/boosting/config.py, lines 332-347). *)
Definition headTypeParameterConfigure (value : pystr) : list statement :=
  if pyEq value (str "single") then
    [UseMethod (str "use_single_output_heads")]
  else if pyEq value (str "partial-fixed") then
    [UseMethod (str "use_fixed_partial_heads");
     SetOption (str "set_output_ratio") GetFloat (str "output_ratio") (str "get_output_ratio");
     SetOption (str "set_min_outputs") GetInt (str "min_outputs") (str "get_min_outputs");
     SetOption (str "set_max_outputs") GetInt (str "max_outputs") (str "get_max_outputs")]
  else if pyEq value (str "partial-dynamic") then
    [UseMethod (str "use_dynamic_partial_heads");
     SetOption (str "set_threshold") GetFloat (str "threshold") (str "get_threshold");
     SetOption (str "set_exponent") GetFloat (str "exponent") (str "get_exponent")]
  else if pyEq value (str "complete") then
    [UseMethod (str "use_complete_heads")]
  else if pyEq value (str "auto") then
    [UseMethod (str "use_automatic_heads")]
  else [].

(** The class [HeadTypeParameter] (boosting/mlrl/boosting/config.py, lines 321-330). *)
Definition headTypeParameter : parameter :=
  Nominal (str "head_type")
    ([mkValue (str "single") (str "SingleOutputHeadMixin") [];
     mkValue (str "partial-fixed") (str "FixedPartialHeadMixin")
       [str "output_ratio"; str "min_outputs"; str "max_outputs"];
     mkValue (str "partial-dynamic") (str "DynamicPartialHeadMixin") [str "threshold"; str "exponent"];
     mkValue (str "complete") (str "CompleteHeadMixin") []])
    headTypeParameterConfigure.

(** The function [MarginalProbabilityCalibrationParameter._configure] (boosting/mlrl/boosting/config.py, lines
    363-368). *)
Definition marginalProbabilityCalibrationParameterConfigure (value : pystr) : list statement :=
  if pyEq value (str "none") then
    [UseMethod (str "use_no_marginal_probability_calibration")]
  else if pyEq value (str "isotonic") then
    [UseMethod (str "use_isotonic_marginal_probability_calibration");
     SetOption (str "set_use_holdout_set") GetBool (str "use_holdout_set") (str "is_holdout_set_used")]
  else [].

(** The class [MarginalProbabilityCalibrationParameter] (boosting/mlrl/boosting/config.py, lines 355-361). *)
Definition marginalProbabilityCalibrationParameter : parameter :=
  Nominal (str "marginal_probability_calibration")
    ([mkValue (str "none") (str "NoMarginalProbabilityCalibrationMixin") [];
     mkValue (str "isotonic") (str "IsotonicMarginalProbabilityCalibrationMixin") [str "use_holdout_set"]])
    marginalProbabilityCalibrationParameterConfigure.

(** The function [JointProbabilityCalibrationParameter._configure] (boosting/mlrl/boosting/config.py, lines
    384-389). *)
Definition jointProbabilityCalibrationParameterConfigure (value : pystr) : list statement :=
  if pyEq value (str "none") then
    [UseMethod (str "use_no_joint_probability_calibration")]
  else if pyEq value (str "isotonic") then
    [UseMethod (str "use_isotonic_joint_probability_calibration");
     SetOption (str "set_use_holdout_set") GetBool (str "use_holdout_set") (str "is_holdout_set_used")]
  else [].

(** The class [JointProbabilityCalibrationParameter] (boosting/mlrl/boosting/config.py, lines 376-382). *)
Definition jointProbabilityCalibrationParameter : parameter :=
  Nominal (str "joint_probability_calibration")
    ([mkValue (str "none") (str "NoJointProbabilityCalibrationMixin") [];
     mkValue (str "isotonic") (str "IsotonicJointProbabilityCalibrationMixin") [str "use_holdout_set"]])
    jointProbabilityCalibrationParameterConfigure.

(** The function [BinaryPredictorParameter._configure] (boosting/mlrl/boosting/config.py, lines 420-441). *)
Definition binaryPredictorParameterConfigure (value : pystr) : list statement :=
  if pyEq value (str "output-wise") then
    [UseMethod (str "use_output_wise_binary_predictor");
     SetOption (str "set_based_on_probabilities") GetBool (str "based_on_probabilities")
        (str "is_based_on_probabilities");
     SetOption (str "set_use_probability_calibration_model") GetBool (str "use_probability_calibration")
        (str "is_probability_calibration_model_used")]
  else if pyEq value (str "example-wise") then
    [UseMethod (str "use_example_wise_binary_predictor");
     SetOption (str "set_based_on_probabilities") GetBool (str "based_on_probabilities")
        (str "is_based_on_probabilities");
     SetOption (str "set_use_probability_calibration_model") GetBool (str "use_probability_calibration")
        (str "is_probability_calibration_model_used")]
  else if pyEq value (str "gfm") then
    [UseMethod (str "use_gfm_binary_predictor");
     SetOption (str "set_use_probability_calibration_model") GetBool (str "use_probability_calibration")
        (str "is_probability_calibration_model_used")]
  else if pyEq value (str "auto") then
    [UseMethod (str "use_automatic_binary_predictor")]
  else [].

(** The class [BinaryPredictorParameter] (boosting/mlrl/boosting/config.py, lines 403-418). *)
Definition binaryPredictorParameter : parameter :=
  Nominal (str "binary_predictor")
    ([mkValue (str "output-wise") (str "OutputWiseBinaryPredictorMixin")
       [str "based_on_probabilities"; str "use_probability_calibration"];
     mkValue (str "example-wise") (str "ExampleWiseBinaryPredictorMixin")
       [str "based_on_probabilities"; str "use_probability_calibration"];
     mkValue (str "gfm") (str "GfmBinaryPredictorMixin") [str "use_probability_calibration"];
     mkValue (str "auto") (str "AutomaticBinaryPredictorMixin") []])
    binaryPredictorParameterConfigure.

(** The function [ProbabilityPredictorParameter._configure] (boosting/mlrl/boosting/config.py, lines 467-479). *)
Definition probabilityPredictorParameterConfigure (value : pystr) : list statement :=
  if pyEq value (str "output-wise") then
    [UseMethod (str "use_output_wise_probability_predictor");
     SetOption (str "set_use_probability_calibration_model") GetBool (str "use_probability_calibration")
        (str "is_probability_calibration_model_used")]
  else if pyEq value (str "marginalized") then
    [UseMethod (str "use_marginalized_probability_predictor");
     SetOption (str "set_use_probability_calibration_model") GetBool (str "use_probability_calibration")
        (str "is_probability_calibration_model_used")]
  else if pyEq value (str "auto") then
    [UseMethod (str "use_automatic_probability_predictor")]
  else [].

(** The class [ProbabilityPredictorParameter] (boosting/mlrl/boosting/config.py, lines 453-465). *)
Definition probabilityPredictorParameter : parameter :=
  Nominal (str "probability_predictor")
    ([mkValue (str "output-wise") (str "OutputWiseProbabilityPredictorMixin") [str "use_probability_calibration"];
     mkValue (str "marginalized") (str "MarginalizedProbabilityPredictorMixin") [str "use_probability_calibration"];
     mkValue (str "auto") (str "AutomaticProbabilityPredictorMixin") []])
    probabilityPredictorParameterConfigure.

(** The function [HeadTypeParameter._configure] (seco/mlrl/seco/config.py, lines 50-54). *)
Definition seCoHeadTypeParameterConfigure (value : pystr) : list statement :=
  if pyEq value (str "single") then
    [UseMethod (str "use_single_output_heads")]
  else if pyEq value (str "partial") then
    [UseMethod (str "use_partial_heads")]
  else [].

(** The class [HeadTypeParameter] (seco/mlrl/seco/config.py, lines 45-48). *)
Definition seCoHeadTypeParameter : parameter :=
  Nominal (str "head_type")
    ([mkValue (str "single") (str "SingleOutputHeadMixin") [];
     mkValue (str "partial") (str "PartialHeadMixin") []])
    seCoHeadTypeParameterConfigure.

(** The function [LiftFunctionParameter._configure] (seco/mlrl/seco/config.py, lines 83-93). *)
Definition liftFunctionParameterConfigure (value : pystr) : list statement :=
  if pyEq value (str "none") then
    [UseMethod (str "use_no_lift_function")]
  else if pyEq value (str "peak") then
    [UseMethod (str "use_peak_lift_function");
     SetOption (str "set_peak_label") GetInt (str "peak_label") (str "get_peak_label");
     SetOption (str "set_max_lift") GetFloat (str "max_lift") (str "get_max_lift");
     SetOption (str "set_curvature") GetFloat (str "curvature") (str "get_curvature")]
  else if pyEq value (str "kln") then
    [UseMethod (str "use_kln_lift_function");
     SetOption (str "set_k") GetFloat (str "k") (str "get_k")]
  else [].

(** The class [LiftFunctionParameter] (seco/mlrl/seco/config.py, lines 74-81). *)
Definition liftFunctionParameter : parameter :=
  Nominal (str "lift_function")
    ([mkValue (str "none") (str "NoLiftFunctionMixin") [];
     mkValue (str "peak") (str "PeakLiftFunctionMixin") [str "peak_label"; str "max_lift"; str "curvature"];
     mkValue (str "kln") (str "KlnLiftFunctionMixin") [str "k"]])
    liftFunctionParameterConfigure.

(** The function [HeuristicParameter._configure] (seco/mlrl/seco/config.py, lines 111-127). *)
Definition heuristicParameterConfigure (value : pystr) : list statement :=
  if pyEq value (str "accuracy") then
    [UseMethod (str "use_accuracy_heuristic")]
  else if pyEq value (str "precision") then
    [UseMethod (str "use_precision_heuristic")]
  else if pyEq value (str "recall") then
    [UseMethod (str "use_recall_heuristic")]
  else if pyEq value (str "laplace") then
    [UseMethod (str "use_laplace_heuristic")]
  else if pyEq value (str "weighted-relative-accuracy") then
    [UseMethod (str "use_wra_heuristic")]
  else if pyEq value (str "f-measure") then
    [UseMethod (str "use_f_measure_heuristic");
     SetOption (str "set_beta") GetFloat (str "beta") (str "get_beta")]
  else if pyEq value (str "m-estimate") then
    [UseMethod (str "use_m_estimate_heuristic");
     SetOption (str "set_m") GetFloat (str "m") (str "get_m")]
  else [].

(** The class [HeuristicParameter] (seco/mlrl/seco/config.py, lines 101-109). *)
Definition heuristicParameter : parameter :=
  Nominal (str "heuristic")
    ([mkValue (str "accuracy") (str "AccuracyHeuristicMixin") [];
     mkValue (str "precision") (str "PrecisionHeuristicMixin") [];
     mkValue (str "recall") (str "RecallHeuristicMixin") [];
     mkValue (str "laplace") (str "LaplaceHeuristicMixin") [];
     mkValue (str "weighted-relative-accuracy") (str "WraHeuristicMixin") [];
     mkValue (str "f-measure") (str "FMeasureHeuristicMixin") [str "beta"];
     mkValue (str "m-estimate") (str "MEstimateHeuristicMixin") [str "m"]])
    heuristicParameterConfigure.

(** The function [PruningHeuristicParameter._configure] (seco/mlrl/seco/config.py, lines 146-162). *)
Definition pruningHeuristicParameterConfigure (value : pystr) : list statement :=
  if pyEq value (str "accuracy") then
    [UseMethod (str "use_accuracy_pruning_heuristic")]
  else if pyEq value (str "precision") then
    [UseMethod (str "use_precision_pruning_heuristic")]
  else if pyEq value (str "recall") then
    [UseMethod (str "use_recall_pruning_heuristic")]
  else if pyEq value (str "laplace") then
    [UseMethod (str "use_laplace_pruning_heuristic")]
  else if pyEq value (str "weighted-relative-accuracy") then
    [UseMethod (str "use_wra_pruning_heuristic")]
  else if pyEq value (str "f-measure") then
    [UseMethod (str "use_f_measure_pruning_heuristic");
     SetOption (str "set_beta") GetFloat (str "beta") (str "get_beta")]
  else if pyEq value (str "m-estimate") then
    [UseMethod (str "use_m_estimate_pruning_heuristic");
     SetOption (str "set_m") GetFloat (str "m") (str "get_m")]
  else [].

(** The class [PruningHeuristicParameter] (seco/mlrl/seco/config.py, lines 135-144). *)
Definition pruningHeuristicParameter : parameter :=
  Nominal (str "pruning_heuristic")
    ([mkValue (str "accuracy") (str "AccuracyPruningHeuristicMixin") [];
     mkValue (str "precision") (str "PrecisionPruningHeuristicMixin") [];
     mkValue (str "recall") (str "RecallPruningHeuristicMixin") [];
     mkValue (str "laplace") (str "LaplacePruningHeuristicMixin") [];
     mkValue (str "weighted-relative-accuracy") (str "WraPruningHeuristicMixin") [];
     mkValue (str "f-measure") (str "FMeasurePruningHeuristicMixin") [str "beta"];
     mkValue (str "m-estimate") (str "MEstimatePruningHeuristicMixin") [str "m"]])
    pruningHeuristicParameterConfigure.

(** The set [RULE_LEARNER_PARAMETERS] (common/mlrl/common/config.py, lines 788-804). *)
Definition ruleLearnerParameters : list parameter :=
  [
    randomStateParameter; ruleInductionParameter; featureBinningParameter; outputSamplingParameter;
    instanceSamplingParameter; featureSamplingParameter; partitionSamplingParameter; globalPruningParameter;
    rulePruningParameter; parallelRuleRefinementParameter; parallelStatisticUpdateParameter;
    parallelPredictionParameter; sizeStoppingCriterionParameter; timeStoppingCriterionParameter;
    sequentialPostOptimizationParameter].

(** The set [BOOMER_CLASSIFIER_PARAMETERS] (boosting/mlrl/boosting/config.py, lines 482-499). *)
Definition boomerClassifierParameters : list parameter :=
  setUnion ruleLearnerParameters [
    extendedPartitionSamplingParameter; extendedFeatureBinningParameter; extendedParallelRuleRefinementParameter;
    extendedParallelStatisticUpdateParameter; shrinkageParameter; l1RegularizationParameter;
    l2RegularizationParameter; defaultRuleParameter; statisticFormatParameter; labelBinningParameter;
    classificationLossParameter; headTypeParameter; marginalProbabilityCalibrationParameter;
    jointProbabilityCalibrationParameter; binaryPredictorParameter; probabilityPredictorParameter].

(** The set [BOOMER_REGRESSOR_PARAMETERS] (boosting/mlrl/boosting/config.py, lines 501-513). *)
Definition boomerRegressorParameters : list parameter :=
  setUnion ruleLearnerParameters [
    extendedPartitionSamplingParameter; extendedFeatureBinningParameter; extendedParallelRuleRefinementParameter;
    extendedParallelStatisticUpdateParameter; shrinkageParameter; l1RegularizationParameter;
    l2RegularizationParameter; defaultRuleParameter; statisticFormatParameter; regressionLossParameter;
    headTypeParameter].

(** The set [SECO_CLASSIFIER_PARAMETERS] (seco/mlrl/seco/config.py, lines 165-171). *)
Definition secoClassifierParameters : list parameter :=
  setUnion ruleLearnerParameters [
    featureBinningParameter; seCoHeadTypeParameter; liftFunctionParameter; heuristicParameter;
    pruningHeuristicParameter].

(** The class [BoomerClassifierConfig] (boosting/mlrl/boosting/cython/learner_boomer.pyx, lines 75-155 for its
    mixins and lines 163-560 for its methods). *)
Definition boomerClassifierConfig : configClass :=
  mkConfigClass
    [
      str "RNGMixin"; str "AutomaticPartitionSamplingMixin"; str "AutomaticFeatureBinningMixin";
      str "AutomaticParallelRuleRefinementMixin"; str "AutomaticParallelStatisticUpdateMixin";
      str "ConstantShrinkageMixin"; str "NoL1RegularizationMixin"; str "L1RegularizationMixin";
      str "NoL2RegularizationMixin"; str "L2RegularizationMixin"; str "NoDefaultRuleMixin"; str "DefaultRuleMixin";
      str "AutomaticDefaultRuleMixin"; str "CompleteHeadMixin"; str "FixedPartialHeadMixin";
      str "DynamicPartialHeadMixin"; str "SingleOutputHeadMixin"; str "AutomaticHeadMixin";
      str "DenseStatisticsMixin"; str "SparseStatisticsMixin"; str "AutomaticStatisticsMixin";
      str "DecomposableLogisticLossMixin"; str "DecomposableSquaredErrorLossMixin";
      str "DecomposableSquaredHingeLossMixin"; str "NonDecomposableLogisticLossMixin";
      str "NonDecomposableSquaredHingeLossMixin"; str "NonDecomposableSquaredErrorLossMixin";
      str "NoLabelBinningMixin"; str "EqualWidthLabelBinningMixin"; str "AutomaticLabelBinningMixin";
      str "IsotonicMarginalProbabilityCalibrationMixin"; str "IsotonicJointProbabilityCalibrationMixin";
      str "OutputWiseBinaryPredictorMixin"; str "ExampleWiseBinaryPredictorMixin"; str "GfmBinaryPredictorMixin";
      str "AutomaticBinaryPredictorMixin"; str "OutputWiseScorePredictorMixin";
      str "OutputWiseProbabilityPredictorMixin"; str "MarginalizedProbabilityPredictorMixin";
      str "AutomaticProbabilityPredictorMixin"; str "SequentialRuleModelAssemblageMixin";
      str "GreedyTopDownRuleInductionMixin"; str "BeamSearchTopDownRuleInductionMixin"; str "NoPostProcessorMixin";
      str "NoFeatureBinningMixin"; str "EqualWidthFeatureBinningMixin"; str "EqualFrequencyFeatureBinningMixin";
      str "NoOutputSamplingMixin"; str "RoundRobinOutputSamplingMixin"; str "OutputSamplingWithoutReplacementMixin";
      str "NoInstanceSamplingMixin"; str "InstanceSamplingWithReplacementMixin";
      str "InstanceSamplingWithoutReplacementMixin"; str "OutputWiseStratifiedInstanceSamplingMixin";
      str "ExampleWiseStratifiedInstanceSamplingMixin"; str "NoFeatureSamplingMixin";
      str "FeatureSamplingWithoutReplacementMixin"; str "NoPartitionSamplingMixin";
      str "RandomBiPartitionSamplingMixin"; str "OutputWiseStratifiedBiPartitionSamplingMixin";
      str "ExampleWiseStratifiedBiPartitionSamplingMixin"; str "NoRulePruningMixin"; str "IrepRulePruningMixin";
      str "NoParallelRuleRefinementMixin"; str "ParallelRuleRefinementMixin"; str "NoParallelStatisticUpdateMixin";
      str "ParallelStatisticUpdateMixin"; str "NoParallelPredictionMixin"; str "ParallelPredictionMixin";
      str "NoSizeStoppingCriterionMixin"; str "SizeStoppingCriterionMixin"; str "NoTimeStoppingCriterionMixin";
      str "TimeStoppingCriterionMixin"; str "PrePruningMixin"; str "NoGlobalPruningMixin"; str "PostPruningMixin";
      str "NoSequentialPostOptimizationMixin"; str "SequentialPostOptimizationMixin";
      str "NoMarginalProbabilityCalibrationMixin"; str "NoJointProbabilityCalibrationMixin"]
    [
      (str "use_rng", str "useRNG");
      (str "use_sequential_rule_model_assemblage", str "useSequentialRuleModelAssemblage");
      (str "use_default_rule", str "useDefaultRule");
      (str "use_greedy_top_down_rule_induction", str "useGreedyTopDownRuleInduction");
      (str "use_beam_search_top_down_rule_induction", str "useBeamSearchTopDownRuleInduction");
      (str "use_no_post_processor", str "useNoPostProcessor");
      (str "use_no_feature_binning", str "useNoFeatureBinning");
      (str "use_equal_width_feature_binning", str "useEqualWidthFeatureBinning");
      (str "use_equal_frequency_feature_binning", str "useEqualFrequencyFeatureBinning");
      (str "use_no_output_sampling", str "useNoOutputSampling");
      (str "use_round_robin_output_sampling", str "useRoundRobinOutputSampling");
      (str "use_output_sampling_without_replacement", str "useOutputSamplingWithoutReplacement");
      (str "use_no_instance_sampling", str "useNoInstanceSampling");
      (str "use_instance_sampling_with_replacement", str "useInstanceSamplingWithReplacement");
      (str "use_instance_sampling_without_replacement", str "useInstanceSamplingWithoutReplacement");
      (str "use_output_wise_probability_predictor", str "useOutputWiseProbabilityPredictor");
      (str "use_marginalized_probability_predictor", str "useMarginalizedProbabilityPredictor");
      (str "use_automatic_probability_predictor", str "useAutomaticProbabilityPredictor");
      (str "use_output_wise_stratified_instance_sampling", str "useOutputWiseStratifiedInstanceSampling");
      (str "use_example_wise_stratified_instance_sampling", str "useExampleWiseStratifiedInstanceSampling");
      (str "use_no_feature_sampling", str "useNoFeatureSampling");
      (str "use_feature_sampling_without_replacement", str "useFeatureSamplingWithoutReplacement");
      (str "use_no_partition_sampling", str "useNoPartitionSampling");
      (str "use_random_bi_partition_sampling", str "useRandomBiPartitionSampling");
      (str "use_output_wise_stratified_bi_partition_sampling", str "useOutputWiseStratifiedBiPartitionSampling");
      (str "use_example_wise_stratified_bi_partition_sampling", str "useExampleWiseStratifiedBiPartitionSampling");
      (str "use_automatic_partition_sampling", str "useAutomaticPartitionSampling");
      (str "use_no_rule_pruning", str "useNoRulePruning"); (str "use_irep_rule_pruning", str "useIrepRulePruning");
      (str "use_no_parallel_rule_refinement", str "useNoParallelRuleRefinement");
      (str "use_parallel_rule_refinement", str "useParallelRuleRefinement");
      (str "use_no_parallel_statistic_update", str "useNoParallelStatisticUpdate");
      (str "use_parallel_statistic_update", str "useParallelStatisticUpdate");
      (str "use_no_parallel_prediction", str "useNoParallelPrediction");
      (str "use_parallel_prediction", str "useParallelPrediction");
      (str "use_no_size_stopping_criterion", str "useNoSizeStoppingCriterion");
      (str "use_size_stopping_criterion", str "useSizeStoppingCriterion");
      (str "use_no_time_stopping_criterion", str "useNoTimeStoppingCriterion");
      (str "use_time_stopping_criterion", str "useTimeStoppingCriterion");
      (str "use_global_pre_pruning", str "useGlobalPrePruning");
      (str "use_no_global_pruning", str "useNoGlobalPruning");
      (str "use_global_post_pruning", str "useGlobalPostPruning");
      (str "use_no_sequential_post_optimization", str "useNoSequentialPostOptimization");
      (str "use_sequential_post_optimization", str "useSequentialPostOptimization");
      (str "use_no_default_rule", str "useNoDefaultRule");
      (str "use_automatic_default_rule", str "useAutomaticDefaultRule");
      (str "use_automatic_feature_binning", str "useAutomaticFeatureBinning");
      (str "use_constant_shrinkage_post_processor", str "useConstantShrinkagePostProcessor");
      (str "use_automatic_parallel_rule_refinement", str "useAutomaticParallelRuleRefinement");
      (str "use_automatic_parallel_statistic_update", str "useAutomaticParallelStatisticUpdate");
      (str "use_automatic_heads", str "useAutomaticHeads"); (str "use_complete_heads", str "useCompleteHeads");
      (str "use_fixed_partial_heads", str "useFixedPartialHeads");
      (str "use_dynamic_partial_heads", str "useDynamicPartialHeads");
      (str "use_single_output_heads", str "useSingleOutputHeads");
      (str "use_automatic_statistics", str "useAutomaticStatistics");
      (str "use_dense_statistics", str "useDenseStatistics");
      (str "use_sparse_statistics", str "useSparseStatistics");
      (str "use_no_l1_regularization", str "useNoL1Regularization");
      (str "use_l1_regularization", str "useL1Regularization");
      (str "use_no_l2_regularization", str "useNoL2Regularization");
      (str "use_l2_regularization", str "useL2Regularization");
      (str "use_non_decomposable_logistic_loss", str "useNonDecomposableLogisticLoss");
      (str "use_non_decomposable_squared_error_loss", str "useNonDecomposableSquaredErrorLoss");
      (str "use_non_decomposable_squared_hinge_loss", str "useNonDecomposableSquaredHingeLoss");
      (str "use_decomposable_logistic_loss", str "useDecomposableLogisticLoss");
      (str "use_decomposable_squared_error_loss", str "useDecomposableSquaredErrorLoss");
      (str "use_decomposable_squared_hinge_loss", str "useDecomposableSquaredHingeLoss");
      (str "use_no_label_binning", str "useNoLabelBinning");
      (str "use_automatic_label_binning", str "useAutomaticLabelBinning");
      (str "use_equal_width_label_binning", str "useEqualWidthLabelBinning");
      (str "use_no_marginal_probability_calibration", str "useNoMarginalProbabilityCalibration");
      (str "use_isotonic_marginal_probability_calibration", str "useIsotonicMarginalProbabilityCalibration");
      (str "use_no_joint_probability_calibration", str "useNoJointProbabilityCalibration");
      (str "use_isotonic_joint_probability_calibration", str "useIsotonicJointProbabilityCalibration");
      (str "use_output_wise_score_predictor", str "useOutputWiseScorePredictor");
      (str "use_output_wise_probability_predictor", str "useOutputWiseProbabilityPredictor");
      (str "use_marginalized_probability_predictor", str "useMarginalizedProbabilityPredictor");
      (str "use_automatic_probability_predictor", str "useAutomaticProbabilityPredictor");
      (str "use_output_wise_binary_predictor", str "useOutputWiseBinaryPredictor");
      (str "use_example_wise_binary_predictor", str "useExampleWiseBinaryPredictor");
      (str "use_gfm_binary_predictor", str "useGfmBinaryPredictor");
      (str "use_automatic_binary_predictor", str "useOutputWiseBinaryPredictor")].

(** The class [BoomerRegressorConfig] (boosting/mlrl/boosting/cython/learner_boomer.pyx, lines 578-635 for its
    mixins and lines 643-896 for its methods). *)
Definition boomerRegressorConfig : configClass :=
  mkConfigClass
    [
      str "AutomaticPartitionSamplingMixin"; str "AutomaticFeatureBinningMixin";
      str "AutomaticParallelRuleRefinementMixin"; str "AutomaticParallelStatisticUpdateMixin";
      str "NoPostProcessorMixin"; str "ConstantShrinkageMixin"; str "NoL1RegularizationMixin";
      str "L1RegularizationMixin"; str "NoL2RegularizationMixin"; str "L2RegularizationMixin";
      str "NoDefaultRuleMixin"; str "DefaultRuleMixin"; str "AutomaticDefaultRuleMixin"; str "CompleteHeadMixin";
      str "DynamicPartialHeadMixin"; str "FixedPartialHeadMixin"; str "SingleOutputHeadMixin";
      str "AutomaticHeadMixin"; str "DenseStatisticsMixin"; str "SparseStatisticsMixin";
      str "AutomaticStatisticsMixin"; str "DecomposableSquaredErrorLossMixin";
      str "NonDecomposableSquaredErrorLossMixin"; str "OutputWiseScorePredictorMixin";
      str "SequentialRuleModelAssemblageMixin"; str "GreedyTopDownRuleInductionMixin";
      str "BeamSearchTopDownRuleInductionMixin"; str "NoFeatureBinningMixin"; str "EqualWidthFeatureBinningMixin";
      str "EqualFrequencyFeatureBinningMixin"; str "NoOutputSamplingMixin"; str "RoundRobinOutputSamplingMixin";
      str "OutputSamplingWithoutReplacementMixin"; str "NoInstanceSamplingMixin";
      str "InstanceSamplingWithoutReplacementMixin"; str "InstanceSamplingWithReplacementMixin";
      str "NoFeatureSamplingMixin"; str "FeatureSamplingWithoutReplacementMixin"; str "NoPartitionSamplingMixin";
      str "RandomBiPartitionSamplingMixin"; str "NoRulePruningMixin"; str "IrepRulePruningMixin";
      str "NoParallelRuleRefinementMixin"; str "ParallelRuleRefinementMixin"; str "NoParallelStatisticUpdateMixin";
      str "ParallelStatisticUpdateMixin"; str "NoParallelPredictionMixin"; str "ParallelPredictionMixin";
      str "NoSizeStoppingCriterionMixin"; str "SizeStoppingCriterionMixin"; str "NoTimeStoppingCriterionMixin";
      str "TimeStoppingCriterionMixin"; str "PrePruningMixin"; str "NoGlobalPruningMixin"; str "PostPruningMixin";
      str "NoSequentialPostOptimizationMixin"; str "SequentialPostOptimizationMixin"]
    [
      (str "use_sequential_rule_model_assemblage", str "useSequentialRuleModelAssemblage");
      (str "use_default_rule", str "useDefaultRule");
      (str "use_greedy_top_down_rule_induction", str "useGreedyTopDownRuleInduction");
      (str "use_beam_search_top_down_rule_induction", str "useBeamSearchTopDownRuleInduction");
      (str "use_no_post_processor", str "useNoPostProcessor");
      (str "use_no_feature_binning", str "useNoFeatureBinning");
      (str "use_equal_width_feature_binning", str "useEqualWidthFeatureBinning");
      (str "use_equal_frequency_feature_binning", str "useEqualFrequencyFeatureBinning");
      (str "use_no_output_sampling", str "useNoOutputSampling");
      (str "use_round_robin_output_sampling", str "useRoundRobinOutputSampling");
      (str "use_output_sampling_without_replacement", str "useOutputSamplingWithoutReplacement");
      (str "use_no_instance_sampling", str "useNoInstanceSampling");
      (str "use_instance_sampling_with_replacement", str "useInstanceSamplingWithReplacement");
      (str "use_instance_sampling_without_replacement", str "useInstanceSamplingWithoutReplacement");
      (str "use_no_feature_sampling", str "useNoFeatureSampling");
      (str "use_feature_sampling_without_replacement", str "useFeatureSamplingWithoutReplacement");
      (str "use_no_partition_sampling", str "useNoPartitionSampling");
      (str "use_random_bi_partition_sampling", str "useRandomBiPartitionSampling");
      (str "use_automatic_partition_sampling", str "useAutomaticPartitionSampling");
      (str "use_no_rule_pruning", str "useNoRulePruning"); (str "use_irep_rule_pruning", str "useIrepRulePruning");
      (str "use_no_parallel_rule_refinement", str "useNoParallelRuleRefinement");
      (str "use_parallel_rule_refinement", str "useParallelRuleRefinement");
      (str "use_no_parallel_statistic_update", str "useNoParallelStatisticUpdate");
      (str "use_parallel_statistic_update", str "useParallelStatisticUpdate");
      (str "use_no_parallel_prediction", str "useNoParallelPrediction");
      (str "use_parallel_prediction", str "useParallelPrediction");
      (str "use_no_size_stopping_criterion", str "useNoSizeStoppingCriterion");
      (str "use_size_stopping_criterion", str "useSizeStoppingCriterion");
      (str "use_no_time_stopping_criterion", str "useNoTimeStoppingCriterion");
      (str "use_time_stopping_criterion", str "useTimeStoppingCriterion");
      (str "use_global_pre_pruning", str "useGlobalPrePruning");
      (str "use_no_global_pruning", str "useNoGlobalPruning");
      (str "use_global_post_pruning", str "useGlobalPostPruning");
      (str "use_no_sequential_post_optimization", str "useNoSequentialPostOptimization");
      (str "use_sequential_post_optimization", str "useSequentialPostOptimization");
      (str "use_no_default_rule", str "useNoDefaultRule");
      (str "use_automatic_default_rule", str "useAutomaticDefaultRule");
      (str "use_automatic_feature_binning", str "useAutomaticFeatureBinning");
      (str "use_constant_shrinkage_post_processor", str "useConstantShrinkagePostProcessor");
      (str "use_automatic_parallel_rule_refinement", str "useAutomaticParallelRuleRefinement");
      (str "use_automatic_parallel_statistic_update", str "useAutomaticParallelStatisticUpdate");
      (str "use_automatic_heads", str "useAutomaticHeads"); (str "use_complete_heads", str "useCompleteHeads");
      (str "use_fixed_partial_heads", str "useFixedPartialHeads");
      (str "use_dynamic_partial_heads", str "useDynamicPartialHeads");
      (str "use_single_output_heads", str "useSingleOutputHeads");
      (str "use_automatic_statistics", str "useAutomaticStatistics");
      (str "use_dense_statistics", str "useDenseStatistics");
      (str "use_sparse_statistics", str "useSparseStatistics");
      (str "use_no_l1_regularization", str "useNoL1Regularization");
      (str "use_l1_regularization", str "useL1Regularization");
      (str "use_no_l2_regularization", str "useNoL2Regularization");
      (str "use_l2_regularization", str "useL2Regularization");
      (str "use_non_decomposable_squared_error_loss", str "useNonDecomposableSquaredErrorLoss");
      (str "use_decomposable_squared_error_loss", str "useDecomposableSquaredErrorLoss");
      (str "use_output_wise_score_predictor", str "useOutputWiseScorePredictor")].

(** The class [SeCoClassifierConfig] (seco/mlrl/seco/cython/learner_seco.pyx, lines 55-113 for its mixins and lines
    121-403 for its methods). *)
Definition secoClassifierConfig : configClass :=
  mkConfigClass
    [
      str "RNGMixin"; str "NoCoverageStoppingCriterionMixin"; str "CoverageStoppingCriterionMixin";
      str "SingleOutputHeadMixin"; str "PartialHeadMixin"; str "NoLiftFunctionMixin"; str "PeakLiftFunctionMixin";
      str "KlnLiftFunctionMixin"; str "AccuracyHeuristicMixin"; str "AccuracyPruningHeuristicMixin";
      str "FMeasureHeuristicMixin"; str "FMeasurePruningHeuristicMixin"; str "MEstimateHeuristicMixin";
      str "MEstimatePruningHeuristicMixin"; str "LaplaceHeuristicMixin"; str "LaplacePruningHeuristicMixin";
      str "PrecisionHeuristicMixin"; str "PrecisionPruningHeuristicMixin"; str "RecallHeuristicMixin";
      str "RecallPruningHeuristicMixin"; str "WraHeuristicMixin"; str "WraPruningHeuristicMixin";
      str "OutputWiseBinaryPredictionMixin"; str "SequentialRuleModelAssemblageMixin"; str "DefaultRuleMixin";
      str "GreedyTopDownRuleInductionMixin"; str "BeamSearchTopDownRuleInductionMixin"; str "NoFeatureBinningMixin";
      str "EqualWidthFeatureBinningMixin"; str "EqualFrequencyFeatureBinningMixin"; str "NoOutputSamplingMixin";
      str "RoundRobinOutputSamplingMixin"; str "OutputSamplingWithoutReplacementMixin";
      str "NoInstanceSamplingMixin"; str "InstanceSamplingWithReplacementMixin";
      str "InstanceSamplingWithoutReplacementMixin"; str "OutputWiseStratifiedInstanceSamplingMixin";
      str "ExampleWiseStratifiedInstanceSamplingMixin"; str "NoFeatureSamplingMixin";
      str "FeatureSamplingWithoutReplacementMixin"; str "NoPartitionSamplingMixin";
      str "RandomBiPartitionSamplingMixin"; str "OutputWiseStratifiedBiPartitionSamplingMixin";
      str "ExampleWiseStratifiedBiPartitionSamplingMixin"; str "NoRulePruningMixin"; str "IrepRulePruningMixin";
      str "NoParallelRuleRefinementMixin"; str "ParallelRuleRefinementMixin"; str "NoParallelStatisticUpdateMixin";
      str "ParallelStatisticUpdateMixin"; str "NoParallelPredictionMixin"; str "ParallelPredictionMixin";
      str "NoSizeStoppingCriterionMixin"; str "SizeStoppingCriterionMixin"; str "NoTimeStoppingCriterionMixin";
      str "TimeStoppingCriterionMixin"; str "NoSequentialPostOptimizationMixin";
      str "SequentialPostOptimizationMixin"]
    [
      (str "use_rng", str "useRNG");
      (str "use_sequential_rule_model_assemblage", str "useSequentialRuleModelAssemblage");
      (str "use_default_rule", str "useDefaultRule");
      (str "use_no_coverage_stopping_criterion", str "useNoCoverageStoppingCriterion");
      (str "use_coverage_stopping_criterion", str "useCoverageStoppingCriterion");
      (str "use_single_output_heads", str "useSingleOutputHeads"); (str "use_partial_heads", str "usePartialHeads");
      (str "use_no_lift_function", str "useNoLiftFunction");
      (str "use_peak_lift_function", str "usePeakLiftFunction");
      (str "use_kln_lift_function", str "useKlnLiftFunction");
      (str "use_accuracy_heuristic", str "useAccuracyHeuristic");
      (str "use_accuracy_pruning_heuristic", str "useAccuracyPruningHeuristic");
      (str "use_f_measure_heuristic", str "useFMeasureHeuristic");
      (str "use_f_measure_pruning_heuristic", str "useFMeasurePruningHeuristic");
      (str "use_m_estimate_heuristic", str "useMEstimateHeuristic");
      (str "use_m_estimate_pruning_heuristic", str "useMEstimatePruningHeuristic");
      (str "use_laplace_heuristic", str "useLaplaceHeuristic");
      (str "use_laplace_pruning_heuristic", str "useLaplacePruningHeuristic");
      (str "use_precision_heuristic", str "usePrecisionHeuristic");
      (str "use_precision_pruning_heuristic", str "usePrecisionPruningHeuristic");
      (str "use_recall_heuristic", str "useRecallHeuristic");
      (str "use_recall_pruning_heuristic", str "useRecallPruningHeuristic");
      (str "use_wra_heuristic", str "useWraHeuristic");
      (str "use_wra_pruning_heuristic", str "useWraPruningHeuristic");
      (str "use_greedy_top_down_rule_induction", str "useGreedyTopDownRuleInduction");
      (str "use_beam_search_top_down_rule_induction", str "useBeamSearchTopDownRuleInduction");
      (str "use_no_feature_binning", str "useNoFeatureBinning");
      (str "use_equal_width_feature_binning", str "useEqualWidthFeatureBinning");
      (str "use_equal_frequency_feature_binning", str "useEqualFrequencyFeatureBinning");
      (str "use_no_output_sampling", str "useNoOutputSampling");
      (str "use_round_robin_output_sampling", str "useRoundRobinOutputSampling");
      (str "use_output_sampling_without_replacement", str "useOutputSamplingWithoutReplacement");
      (str "use_no_instance_sampling", str "useNoInstanceSampling");
      (str "use_instance_sampling_with_replacement", str "useInstanceSamplingWithReplacement");
      (str "use_instance_sampling_without_replacement", str "useInstanceSamplingWithoutReplacement");
      (str "use_output_wise_stratified_instance_sampling", str "useOutputWiseStratifiedInstanceSampling");
      (str "use_example_wise_stratified_instance_sampling", str "useExampleWiseStratifiedInstanceSampling");
      (str "use_no_feature_sampling", str "useNoFeatureSampling");
      (str "use_feature_sampling_without_replacement", str "useFeatureSamplingWithoutReplacement");
      (str "use_no_partition_sampling", str "useNoPartitionSampling");
      (str "use_random_bi_partition_sampling", str "useRandomBiPartitionSampling");
      (str "use_output_wise_stratified_bi_partition_sampling", str "useOutputWiseStratifiedBiPartitionSampling");
      (str "use_example_wise_stratified_bi_partition_sampling", str "useExampleWiseStratifiedBiPartitionSampling");
      (str "use_no_rule_pruning", str "useNoRulePruning"); (str "use_irep_rule_pruning", str "useIrepRulePruning");
      (str "use_no_parallel_rule_refinement", str "useNoParallelRuleRefinement");
      (str "use_parallel_rule_refinement", str "useParallelRuleRefinement");
      (str "use_no_parallel_statistic_update", str "useNoParallelStatisticUpdate");
      (str "use_parallel_statistic_update", str "useParallelStatisticUpdate");
      (str "use_no_parallel_prediction", str "useNoParallelPrediction");
      (str "use_parallel_prediction", str "useParallelPrediction");
      (str "use_no_size_stopping_criterion", str "useNoSizeStoppingCriterion");
      (str "use_size_stopping_criterion", str "useSizeStoppingCriterion");
      (str "use_no_time_stopping_criterion", str "useNoTimeStoppingCriterion");
      (str "use_time_stopping_criterion", str "useTimeStoppingCriterion");
      (str "use_no_sequential_post_optimization", str "useNoSequentialPostOptimization");
      (str "use_sequential_post_optimization", str "useSequentialPostOptimization");
      (str "use_output_wise_binary_predictor", str "useOutputWiseBinaryPredictor")].

(** A class that implements a rule learner: the attributes that correspond to the arguments of its constructor, the type
    of its configuration and its parameters. *)
Record learnerClass := mkLearnerClass {
  attributes : list pystr;
  configOf : configClass;
  parametersOf : list parameter
}.

(** The class [BoomerClassifier] (boosting/mlrl/boosting/boosting_learners.py, lines 24-53 and
    177-180). *)
Definition boomerClassifier : learnerClass :=
  mkLearnerClass
    [
      str "random_state"; str "feature_format"; str "output_format"; str "prediction_format"; str "statistic_format";
      str "default_rule"; str "rule_induction"; str "max_rules"; str "time_limit"; str "global_pruning";
      str "sequential_post_optimization"; str "head_type"; str "loss"; str "marginal_probability_calibration";
      str "joint_probability_calibration"; str "binary_predictor"; str "probability_predictor";
      str "output_sampling"; str "instance_sampling"; str "feature_sampling"; str "holdout"; str "feature_binning";
      str "label_binning"; str "rule_pruning"; str "shrinkage"; str "l1_regularization_weight";
      str "l2_regularization_weight"; str "parallel_rule_refinement"; str "parallel_statistic_update";
      str "parallel_prediction"]
    boomerClassifierConfig boomerClassifierParameters.

(** The class [BoomerRegressor] (boosting/mlrl/boosting/boosting_learners.py, lines 190-214 and
    307-310). *)
Definition boomerRegressor : learnerClass :=
  mkLearnerClass
    [
      str "random_state"; str "feature_format"; str "output_format"; str "prediction_format"; str "statistic_format";
      str "default_rule"; str "rule_induction"; str "max_rules"; str "time_limit"; str "global_pruning";
      str "sequential_post_optimization"; str "head_type"; str "loss"; str "output_sampling";
      str "instance_sampling"; str "feature_sampling"; str "holdout"; str "feature_binning"; str "rule_pruning";
      str "shrinkage"; str "l1_regularization_weight"; str "l2_regularization_weight";
      str "parallel_rule_refinement"; str "parallel_statistic_update"; str "parallel_prediction"]
    boomerRegressorConfig boomerRegressorParameters.

(** The class [SeCoClassifier] (seco/mlrl/seco/seco_learners.py, lines 24-44 and
    124-127). *)
Definition secoClassifier : learnerClass :=
  mkLearnerClass
    [
      str "random_state"; str "feature_format"; str "output_format"; str "prediction_format"; str "rule_induction";
      str "max_rules"; str "time_limit"; str "sequential_post_optimization"; str "head_type"; str "lift_function";
      str "heuristic"; str "pruning_heuristic"; str "output_sampling"; str "instance_sampling";
      str "feature_sampling"; str "holdout"; str "feature_binning"; str "rule_pruning";
      str "parallel_rule_refinement"; str "parallel_statistic_update"; str "parallel_prediction"]
    secoClassifierConfig secoClassifierParameters.

(** The constructor of a rule learner, given the keyword arguments and the default values of the remaining ones. The
    value [None] is returned if an argument does not exist, in which case a [TypeError] is raised by Python. *)
Definition createLearner {A : Type} (cls : learnerClass) (defaults : pystr -> option A) (arguments : pydict A)
  : option (pydict (option A)) :=
  if forallb (fun a => pyIn (fst a) (attributes cls)) arguments then
    Some (map (fun a => (a, match dictGet a arguments with Some v => Some v | None => defaults a end)) (attributes cls))
  else None.

(** The function [_create_learner] (boosting/mlrl/boosting/boosting_learners.py, lines 177-180 and 307-310 and
    seco/mlrl/seco/seco_learners.py, lines 124-127), where the set of parameters is traversed in the given order. *)
Definition configureLearner {A : Type} (env : environment A) (cls : learnerClass) (order : list parameter)
           (learner : pydict (option A)) : result (list call) :=
  configureRuleLearner env (configOf cls) learner [] order.
