(** * The documented parameters of the rule learners

    The values of parameters that are described in the documentation (doc/user_guide/boosting/parameters.md and
    doc/user_guide/seco/parameters.md), together with the component of a rule learner that they are supposed to select
    and the settings of this component that are supposed to be changed by their options. *)

From Coq Require Import List Bool Ascii String QArith Permutation.
From Verif Require Import Model.Options Model.PyConfig Spec.Options.
Import ListNotations.

(** An option, how it is converted, the setting that it changes and where the default value of this setting is found. *)
Record documentedOption := mkOption {
  optionKey : pystr;
  optionKind : kind;
  optionSetter : pystr;
  optionGetter : pystr
}.

(** A value of a nominal parameter, the C++ function that selects the corresponding component and the options. *)
Record strategy := mkStrategy {
  strategyValue : pystr;
  strategyCpp : pystr;
  strategyOptions : list documentedOption
}.

(** The documentation of nominal parameters. *)
Definition documentation := list (pystr * list strategy).

(** How a value, together with options, is written according to the documentation (doc/quickstart/testbed.md). *)
Definition written (s : strategy) (text : pystr) (ps : pairs) : Prop :=
  (text = strategyValue s /\ ps = []) \/
  (strategyOptions s <> [] /\ Forall (fun p => In (fst p) (map optionKey (strategyOptions s))) ps /\
   exists body, elements body ps /\ text = strategyValue s ++ "{"%char :: body ++ ["}"%char]).

(** The values that may be specified for a parameter, together with their options. *)
Definition documentedValues (l : list strategy) : pydict (list pystr) :=
  map (fun s => (strategyValue s, map optionKey (strategyOptions s))) l.

(** How a setting should be changed: to the value that has been specified last or not at all. *)
Definition intended (s : strategy) (ps : pairs) (o : documentedOption) : call :=
  CallSet (strategyCpp s) (optionSetter o)
    (match lastValue (optionKey o) ps with
     | Some text => Given (optionKind o) text
     | None => Current (optionGetter o)
     end).

(** The component is selected and exactly the settings that correspond to its options are changed as intended. *)
Definition applied (s : strategy) (ps : pairs) (before calls : list call) : Prop :=
  exists sets, calls = before ++ CallUse (strategyCpp s) :: sets /\
    Permutation sets (map (intended s ps) (strategyOptions s)).

(** All options that have been specified can be converted. *)
Definition wellTyped {A : Type} (env : environment A) (s : strategy) (ps : pairs) : Prop :=
  forall o text, In o (strategyOptions s) -> lastValue (optionKey o) ps = Some text ->
    convertible env (optionKind o) text = true.

(** The setters do not reject any of the settings. *)
Definition allAccepted {A : Type} (env : environment A) (s : strategy) (ps : pairs) : Prop :=
  forall before o, In o (strategyOptions s) -> accepts env before (intended s ps o) = true.

(** The documentation of a numerical parameter: the number that turns off a component and the corresponding C++ function,
    if there is one, as well as the C++ function and the setter that are used for other numbers. *)
Record documentedNumber := mkNumber {
  numberName : pystr;
  numberKind : kind;
  numberOff : option (Q * pystr);
  numberCpp : pystr;
  numberSetter : pystr
}.

(** The calls that are needed to apply a number. *)
Definition appliedNumber (d : documentedNumber) (q : Q) (before calls : list call) : Prop :=
  match numberOff d with
  | Some (n, cpp) =>
      (q == n /\ calls = before ++ [CallUse cpp]) \/
      (~ q == n /\ calls = before ++ [CallUse (numberCpp d); CallSet (numberCpp d) (numberSetter d) (Value q)])
  | None => calls = before ++ [CallUse (numberCpp d); CallSet (numberCpp d) (numberSetter d) (Value q)]
  end.

(** The numerical parameters that are available for all rule learners (doc/user_guide/boosting/parameters.md, lines
    228-238, 388-392 and doc/user_guide/seco/parameters.md, lines 231-241, 318-322). *)
Definition documentedNumbers : list documentedNumber :=
  [mkNumber (str "random_state") GetInt None (str "useRNG") (str "set_random_state");
   mkNumber (str "max_rules") GetInt (Some (0%Q, str "useNoSizeStoppingCriterion")) (str "useSizeStoppingCriterion")
     (str "set_max_rules");
   mkNumber (str "time_limit") GetInt (Some (0%Q, str "useNoTimeStoppingCriterion")) (str "useTimeStoppingCriterion")
     (str "set_time_limit")].

(** The numerical parameters of [BoomerClassifier] and [BoomerRegressor] (doc/user_guide/boosting/parameters.md, lines
    86-102). *)
Definition documentedNumbersOfBoomer : list documentedNumber :=
  documentedNumbers ++
  [mkNumber (str "shrinkage") GetFloat (Some (1%Q, str "useNoPostProcessor")) (str "useConstantShrinkagePostProcessor")
     (str "set_shrinkage");
   mkNumber (str "l1_regularization_weight") GetFloat (Some (0%Q, str "useNoL1Regularization"))
     (str "useL1Regularization") (str "set_regularization_weight");
   mkNumber (str "l2_regularization_weight") GetFloat (Some (0%Q, str "useNoL2Regularization"))
     (str "useL2Regularization") (str "set_regularization_weight")].

(** The nominal parameters of [BoomerClassifier] (doc/user_guide/boosting/parameters.md). *)
Definition documentedForClassifier : documentation :=
  [(str "loss",
      [mkStrategy (str "logistic-decomposable") (str "useDecomposableLogisticLoss") [];
       mkStrategy (str "logistic-non-decomposable") (str "useNonDecomposableLogisticLoss") [];
       mkStrategy (str "squared-hinge-decomposable") (str "useDecomposableSquaredHingeLoss") [];
       mkStrategy (str "squared-hinge-non-decomposable") (str "useNonDecomposableSquaredHingeLoss") [];
       mkStrategy (str "squared-error-decomposable") (str "useDecomposableSquaredErrorLoss") [];
       mkStrategy (str "squared-error-non-decomposable") (str "useNonDecomposableSquaredErrorLoss") []]);
   (str "default_rule",
      [mkStrategy (str "auto") (str "useAutomaticDefaultRule") [];
       mkStrategy (str "true") (str "useDefaultRule") [];
       mkStrategy (str "false") (str "useNoDefaultRule") []]);
   (str "rule_induction",
      [mkStrategy (str "top-down-greedy") (str "useGreedyTopDownRuleInduction")
        [mkOption (str "max_conditions") GetInt (str "set_max_conditions") (str "get_max_conditions");
         mkOption (str "min_coverage") GetInt (str "set_min_coverage") (str "get_min_coverage");
         mkOption (str "min_support") GetFloat (str "set_min_support") (str "get_min_support");
         mkOption (str "max_head_refinements") GetInt (str "set_max_head_refinements")
           (str "get_max_head_refinements");
         mkOption (str "recalculate_predictions") GetBool (str "set_recalculate_predictions")
           (str "are_predictions_recalculated")];
       mkStrategy (str "top-down-beam-search") (str "useBeamSearchTopDownRuleInduction")
        [mkOption (str "beam_width") GetInt (str "set_beam_width") (str "get_beam_width");
         mkOption (str "resample_features") GetBool (str "set_resample_features") (str "are_features_resampled");
         mkOption (str "max_conditions") GetInt (str "set_max_conditions") (str "get_max_conditions");
         mkOption (str "min_coverage") GetInt (str "set_min_coverage") (str "get_min_coverage");
         mkOption (str "min_support") GetFloat (str "set_min_support") (str "get_min_support");
         mkOption (str "max_head_refinements") GetInt (str "set_max_head_refinements")
           (str "get_max_head_refinements");
         mkOption (str "recalculate_predictions") GetBool (str "set_recalculate_predictions")
           (str "are_predictions_recalculated")]]);
   (str "head_type",
      [mkStrategy (str "auto") (str "useAutomaticHeads") [];
       mkStrategy (str "single") (str "useSingleOutputHeads") [];
       mkStrategy (str "partial-fixed") (str "useFixedPartialHeads")
        [mkOption (str "output_ratio") GetFloat (str "set_output_ratio") (str "get_output_ratio");
         mkOption (str "min_outputs") GetInt (str "set_min_outputs") (str "get_min_outputs");
         mkOption (str "max_outputs") GetInt (str "set_max_outputs") (str "get_max_outputs")];
       mkStrategy (str "partial-dynamic") (str "useDynamicPartialHeads")
        [mkOption (str "threshold") GetFloat (str "set_threshold") (str "get_threshold");
         mkOption (str "exponent") GetFloat (str "set_exponent") (str "get_exponent")];
       mkStrategy (str "complete") (str "useCompleteHeads") []]);
   (str "holdout",
      [mkStrategy (str "none") (str "useNoPartitionSampling") [];
       mkStrategy (str "auto") (str "useAutomaticPartitionSampling") [];
       mkStrategy (str "random") (str "useRandomBiPartitionSampling")
        [mkOption (str "holdout_set_size") GetFloat (str "set_holdout_set_size") (str "get_holdout_set_size")];
       mkStrategy (str "stratified-output-wise") (str "useOutputWiseStratifiedBiPartitionSampling")
        [mkOption (str "holdout_set_size") GetFloat (str "set_holdout_set_size") (str "get_holdout_set_size")];
       mkStrategy (str "stratified-example-wise") (str "useExampleWiseStratifiedBiPartitionSampling")
        [mkOption (str "holdout_set_size") GetFloat (str "set_holdout_set_size") (str "get_holdout_set_size")]]);
   (str "rule_pruning",
      [mkStrategy (str "none") (str "useNoRulePruning") [];
       mkStrategy (str "irep") (str "useIrepRulePruning") []]);
   (str "global_pruning",
      [mkStrategy (str "none") (str "useNoGlobalPruning") [];
       mkStrategy (str "post-pruning") (str "useGlobalPostPruning")
        [mkOption (str "use_holdout_set") GetBool (str "set_use_holdout_set") (str "is_holdout_set_used");
         mkOption (str "remove_unused_rules") GetBool (str "set_remove_unused_rules") (str "is_remove_unused_rules");
         mkOption (str "min_rules") GetInt (str "set_min_rules") (str "get_min_rules");
         mkOption (str "interval") GetInt (str "set_interval") (str "get_interval")];
       mkStrategy (str "pre-pruning") (str "useGlobalPrePruning")
        [mkOption (str "use_holdout_set") GetBool (str "set_use_holdout_set") (str "is_holdout_set_used");
         mkOption (str "remove_unused_rules") GetBool (str "set_remove_unused_rules") (str "is_remove_unused_rules");
         mkOption (str "min_rules") GetInt (str "set_min_rules") (str "get_min_rules");
         mkOption (str "update_interval") GetInt (str "set_update_interval") (str "get_update_interval");
         mkOption (str "stop_interval") GetInt (str "set_stop_interval") (str "get_stop_interval");
         mkOption (str "num_past") GetInt (str "set_num_past") (str "get_num_past");
         mkOption (str "num_recent") GetInt (str "set_num_current") (str "get_num_current");
         mkOption (str "aggregation") GetAggregation (str "set_aggregation_function")
           (str "get_aggregation_function");
         mkOption (str "min_improvement") GetFloat (str "set_min_improvement") (str "get_min_improvement")]]);
   (str "sequential_post_optimization",
      [mkStrategy (str "false") (str "useNoSequentialPostOptimization") [];
       mkStrategy (str "true") (str "useSequentialPostOptimization")
        [mkOption (str "num_iterations") GetInt (str "set_num_iterations") (str "get_num_iterations");
         mkOption (str "refine_heads") GetBool (str "set_refine_heads") (str "are_heads_refined");
         mkOption (str "resample_features") GetBool (str "set_resample_features") (str "are_features_resampled")]]);
   (str "output_sampling",
      [mkStrategy (str "none") (str "useNoOutputSampling") [];
       mkStrategy (str "round-robin") (str "useRoundRobinOutputSampling") [];
       mkStrategy (str "without-replacement") (str "useOutputSamplingWithoutReplacement")
        [mkOption (str "sample_size") GetFloat (str "set_sample_size") (str "get_sample_size");
         mkOption (str "min_samples") GetInt (str "set_min_samples") (str "get_min_samples");
         mkOption (str "max_samples") GetInt (str "set_max_samples") (str "get_max_samples")]]);
   (str "feature_sampling",
      [mkStrategy (str "none") (str "useNoFeatureSampling") [];
       mkStrategy (str "without-replacement") (str "useFeatureSamplingWithoutReplacement")
        [mkOption (str "sample_size") GetFloat (str "set_sample_size") (str "get_sample_size");
         mkOption (str "min_samples") GetInt (str "set_min_samples") (str "get_min_samples");
         mkOption (str "max_samples") GetInt (str "set_max_samples") (str "get_max_samples");
         mkOption (str "num_retained") GetInt (str "set_num_retained") (str "get_num_retained")]]);
   (str "instance_sampling",
      [mkStrategy (str "none") (str "useNoInstanceSampling") [];
       mkStrategy (str "with-replacement") (str "useInstanceSamplingWithReplacement")
        [mkOption (str "sample_size") GetFloat (str "set_sample_size") (str "get_sample_size");
         mkOption (str "min_samples") GetInt (str "set_min_samples") (str "get_min_samples");
         mkOption (str "max_samples") GetInt (str "set_max_samples") (str "get_max_samples")];
       mkStrategy (str "without-replacement") (str "useInstanceSamplingWithoutReplacement")
        [mkOption (str "sample_size") GetFloat (str "set_sample_size") (str "get_sample_size");
         mkOption (str "min_samples") GetInt (str "set_min_samples") (str "get_min_samples");
         mkOption (str "max_samples") GetInt (str "set_max_samples") (str "get_max_samples")];
       mkStrategy (str "stratified-output-wise") (str "useOutputWiseStratifiedInstanceSampling")
        [mkOption (str "sample_size") GetFloat (str "set_sample_size") (str "get_sample_size");
         mkOption (str "min_samples") GetInt (str "set_min_samples") (str "get_min_samples");
         mkOption (str "max_samples") GetInt (str "set_max_samples") (str "get_max_samples")];
       mkStrategy (str "stratified-example-wise") (str "useExampleWiseStratifiedInstanceSampling")
        [mkOption (str "sample_size") GetFloat (str "set_sample_size") (str "get_sample_size");
         mkOption (str "min_samples") GetInt (str "set_min_samples") (str "get_min_samples");
         mkOption (str "max_samples") GetInt (str "set_max_samples") (str "get_max_samples")]]);
   (str "feature_binning",
      [mkStrategy (str "none") (str "useNoFeatureBinning") [];
       mkStrategy (str "equal-width") (str "useEqualWidthFeatureBinning")
        [mkOption (str "bin_ratio") GetFloat (str "set_bin_ratio") (str "get_bin_ratio");
         mkOption (str "min_bins") GetInt (str "set_min_bins") (str "get_min_bins");
         mkOption (str "max_bins") GetInt (str "set_max_bins") (str "get_max_bins")];
       mkStrategy (str "equal-frequency") (str "useEqualFrequencyFeatureBinning")
        [mkOption (str "bin_ratio") GetFloat (str "set_bin_ratio") (str "get_bin_ratio");
         mkOption (str "min_bins") GetInt (str "set_min_bins") (str "get_min_bins");
         mkOption (str "max_bins") GetInt (str "set_max_bins") (str "get_max_bins")]]);
   (str "label_binning",
      [mkStrategy (str "none") (str "useNoLabelBinning") [];
       mkStrategy (str "auto") (str "useAutomaticLabelBinning") [];
       mkStrategy (str "equal-width") (str "useEqualWidthLabelBinning")
        [mkOption (str "bin_ratio") GetFloat (str "set_bin_ratio") (str "get_bin_ratio");
         mkOption (str "min_bins") GetInt (str "set_min_bins") (str "get_min_bins");
         mkOption (str "max_bins") GetInt (str "set_max_bins") (str "get_max_bins")]]);
   (str "statistic_format",
      [mkStrategy (str "auto") (str "useAutomaticStatistics") [];
       mkStrategy (str "dense") (str "useDenseStatistics") [];
       mkStrategy (str "sparse") (str "useSparseStatistics") []]);
   (str "marginal_probability_calibration",
      [mkStrategy (str "none") (str "useNoMarginalProbabilityCalibration") [];
       mkStrategy (str "isotonic") (str "useIsotonicMarginalProbabilityCalibration")
        [mkOption (str "use_holdout_set") GetBool (str "set_use_holdout_set") (str "is_holdout_set_used")]]);
   (str "joint_probability_calibration",
      [mkStrategy (str "none") (str "useNoJointProbabilityCalibration") [];
       mkStrategy (str "isotonic") (str "useIsotonicJointProbabilityCalibration")
        [mkOption (str "use_holdout_set") GetBool (str "set_use_holdout_set") (str "is_holdout_set_used")]]);
   (str "binary_predictor",
      [mkStrategy (str "auto") (str "useAutomaticBinaryPredictor") [];
       mkStrategy (str "output-wise") (str "useOutputWiseBinaryPredictor")
        [mkOption (str "based_on_probabilities") GetBool (str "set_based_on_probabilities")
           (str "is_based_on_probabilities");
         mkOption (str "use_probability_calibration") GetBool (str "set_use_probability_calibration_model")
           (str "is_probability_calibration_model_used")];
       mkStrategy (str "example-wise") (str "useExampleWiseBinaryPredictor")
        [mkOption (str "based_on_probabilities") GetBool (str "set_based_on_probabilities")
           (str "is_based_on_probabilities");
         mkOption (str "use_probability_calibration") GetBool (str "set_use_probability_calibration_model")
           (str "is_probability_calibration_model_used")];
       mkStrategy (str "gfm") (str "useGfmBinaryPredictor")
        [mkOption (str "use_probability_calibration") GetBool (str "set_use_probability_calibration_model")
           (str "is_probability_calibration_model_used")]]);
   (str "probability_predictor",
      [mkStrategy (str "auto") (str "useAutomaticProbabilityPredictor") [];
       mkStrategy (str "output-wise") (str "useOutputWiseProbabilityPredictor")
        [mkOption (str "use_probability_calibration") GetBool (str "set_use_probability_calibration_model")
           (str "is_probability_calibration_model_used")];
       mkStrategy (str "marginalized") (str "useMarginalizedProbabilityPredictor")
        [mkOption (str "use_probability_calibration") GetBool (str "set_use_probability_calibration_model")
           (str "is_probability_calibration_model_used")]]);
   (str "parallel_rule_refinement",
      [mkStrategy (str "auto") (str "useAutomaticParallelRuleRefinement") [];
       mkStrategy (str "false") (str "useNoParallelRuleRefinement") [];
       mkStrategy (str "true") (str "useParallelRuleRefinement")
        [mkOption (str "num_preferred_threads") GetInt (str "set_num_preferred_threads")
           (str "get_num_preferred_threads")]]);
   (str "parallel_statistic_update",
      [mkStrategy (str "auto") (str "useAutomaticParallelStatisticUpdate") [];
       mkStrategy (str "false") (str "useNoParallelStatisticUpdate") [];
       mkStrategy (str "true") (str "useParallelStatisticUpdate")
        [mkOption (str "num_preferred_threads") GetInt (str "set_num_preferred_threads")
           (str "get_num_preferred_threads")]]);
   (str "parallel_prediction",
      [mkStrategy (str "false") (str "useNoParallelPrediction") [];
       mkStrategy (str "true") (str "useParallelPrediction")
        [mkOption (str "num_preferred_threads") GetInt (str "set_num_preferred_threads")
           (str "get_num_preferred_threads")]])].

(** The nominal parameters of [BoomerRegressor] (doc/user_guide/boosting/parameters.md), i.e., without those that can
    only be used for classification. *)
Definition documentedForRegressor : documentation :=
  [(str "loss",
      [mkStrategy (str "squared-error-decomposable") (str "useDecomposableSquaredErrorLoss") [];
       mkStrategy (str "squared-error-non-decomposable") (str "useNonDecomposableSquaredErrorLoss") []]);
   (str "default_rule",
      [mkStrategy (str "auto") (str "useAutomaticDefaultRule") [];
       mkStrategy (str "true") (str "useDefaultRule") [];
       mkStrategy (str "false") (str "useNoDefaultRule") []]);
   (str "rule_induction",
      [mkStrategy (str "top-down-greedy") (str "useGreedyTopDownRuleInduction")
        [mkOption (str "max_conditions") GetInt (str "set_max_conditions") (str "get_max_conditions");
         mkOption (str "min_coverage") GetInt (str "set_min_coverage") (str "get_min_coverage");
         mkOption (str "min_support") GetFloat (str "set_min_support") (str "get_min_support");
         mkOption (str "max_head_refinements") GetInt (str "set_max_head_refinements")
           (str "get_max_head_refinements");
         mkOption (str "recalculate_predictions") GetBool (str "set_recalculate_predictions")
           (str "are_predictions_recalculated")];
       mkStrategy (str "top-down-beam-search") (str "useBeamSearchTopDownRuleInduction")
        [mkOption (str "beam_width") GetInt (str "set_beam_width") (str "get_beam_width");
         mkOption (str "resample_features") GetBool (str "set_resample_features") (str "are_features_resampled");
         mkOption (str "max_conditions") GetInt (str "set_max_conditions") (str "get_max_conditions");
         mkOption (str "min_coverage") GetInt (str "set_min_coverage") (str "get_min_coverage");
         mkOption (str "min_support") GetFloat (str "set_min_support") (str "get_min_support");
         mkOption (str "max_head_refinements") GetInt (str "set_max_head_refinements")
           (str "get_max_head_refinements");
         mkOption (str "recalculate_predictions") GetBool (str "set_recalculate_predictions")
           (str "are_predictions_recalculated")]]);
   (str "head_type",
      [mkStrategy (str "auto") (str "useAutomaticHeads") [];
       mkStrategy (str "single") (str "useSingleOutputHeads") [];
       mkStrategy (str "partial-fixed") (str "useFixedPartialHeads")
        [mkOption (str "output_ratio") GetFloat (str "set_output_ratio") (str "get_output_ratio");
         mkOption (str "min_outputs") GetInt (str "set_min_outputs") (str "get_min_outputs");
         mkOption (str "max_outputs") GetInt (str "set_max_outputs") (str "get_max_outputs")];
       mkStrategy (str "partial-dynamic") (str "useDynamicPartialHeads")
        [mkOption (str "threshold") GetFloat (str "set_threshold") (str "get_threshold");
         mkOption (str "exponent") GetFloat (str "set_exponent") (str "get_exponent")];
       mkStrategy (str "complete") (str "useCompleteHeads") []]);
   (str "holdout",
      [mkStrategy (str "none") (str "useNoPartitionSampling") [];
       mkStrategy (str "auto") (str "useAutomaticPartitionSampling") [];
       mkStrategy (str "random") (str "useRandomBiPartitionSampling")
        [mkOption (str "holdout_set_size") GetFloat (str "set_holdout_set_size") (str "get_holdout_set_size")]]);
   (str "rule_pruning",
      [mkStrategy (str "none") (str "useNoRulePruning") [];
       mkStrategy (str "irep") (str "useIrepRulePruning") []]);
   (str "global_pruning",
      [mkStrategy (str "none") (str "useNoGlobalPruning") [];
       mkStrategy (str "post-pruning") (str "useGlobalPostPruning")
        [mkOption (str "use_holdout_set") GetBool (str "set_use_holdout_set") (str "is_holdout_set_used");
         mkOption (str "remove_unused_rules") GetBool (str "set_remove_unused_rules") (str "is_remove_unused_rules");
         mkOption (str "min_rules") GetInt (str "set_min_rules") (str "get_min_rules");
         mkOption (str "interval") GetInt (str "set_interval") (str "get_interval")];
       mkStrategy (str "pre-pruning") (str "useGlobalPrePruning")
        [mkOption (str "use_holdout_set") GetBool (str "set_use_holdout_set") (str "is_holdout_set_used");
         mkOption (str "remove_unused_rules") GetBool (str "set_remove_unused_rules") (str "is_remove_unused_rules");
         mkOption (str "min_rules") GetInt (str "set_min_rules") (str "get_min_rules");
         mkOption (str "update_interval") GetInt (str "set_update_interval") (str "get_update_interval");
         mkOption (str "stop_interval") GetInt (str "set_stop_interval") (str "get_stop_interval");
         mkOption (str "num_past") GetInt (str "set_num_past") (str "get_num_past");
         mkOption (str "num_recent") GetInt (str "set_num_current") (str "get_num_current");
         mkOption (str "aggregation") GetAggregation (str "set_aggregation_function")
           (str "get_aggregation_function");
         mkOption (str "min_improvement") GetFloat (str "set_min_improvement") (str "get_min_improvement")]]);
   (str "sequential_post_optimization",
      [mkStrategy (str "false") (str "useNoSequentialPostOptimization") [];
       mkStrategy (str "true") (str "useSequentialPostOptimization")
        [mkOption (str "num_iterations") GetInt (str "set_num_iterations") (str "get_num_iterations");
         mkOption (str "refine_heads") GetBool (str "set_refine_heads") (str "are_heads_refined");
         mkOption (str "resample_features") GetBool (str "set_resample_features") (str "are_features_resampled")]]);
   (str "output_sampling",
      [mkStrategy (str "none") (str "useNoOutputSampling") [];
       mkStrategy (str "round-robin") (str "useRoundRobinOutputSampling") [];
       mkStrategy (str "without-replacement") (str "useOutputSamplingWithoutReplacement")
        [mkOption (str "sample_size") GetFloat (str "set_sample_size") (str "get_sample_size");
         mkOption (str "min_samples") GetInt (str "set_min_samples") (str "get_min_samples");
         mkOption (str "max_samples") GetInt (str "set_max_samples") (str "get_max_samples")]]);
   (str "feature_sampling",
      [mkStrategy (str "none") (str "useNoFeatureSampling") [];
       mkStrategy (str "without-replacement") (str "useFeatureSamplingWithoutReplacement")
        [mkOption (str "sample_size") GetFloat (str "set_sample_size") (str "get_sample_size");
         mkOption (str "min_samples") GetInt (str "set_min_samples") (str "get_min_samples");
         mkOption (str "max_samples") GetInt (str "set_max_samples") (str "get_max_samples");
         mkOption (str "num_retained") GetInt (str "set_num_retained") (str "get_num_retained")]]);
   (str "instance_sampling",
      [mkStrategy (str "none") (str "useNoInstanceSampling") [];
       mkStrategy (str "with-replacement") (str "useInstanceSamplingWithReplacement")
        [mkOption (str "sample_size") GetFloat (str "set_sample_size") (str "get_sample_size");
         mkOption (str "min_samples") GetInt (str "set_min_samples") (str "get_min_samples");
         mkOption (str "max_samples") GetInt (str "set_max_samples") (str "get_max_samples")];
       mkStrategy (str "without-replacement") (str "useInstanceSamplingWithoutReplacement")
        [mkOption (str "sample_size") GetFloat (str "set_sample_size") (str "get_sample_size");
         mkOption (str "min_samples") GetInt (str "set_min_samples") (str "get_min_samples");
         mkOption (str "max_samples") GetInt (str "set_max_samples") (str "get_max_samples")]]);
   (str "feature_binning",
      [mkStrategy (str "none") (str "useNoFeatureBinning") [];
       mkStrategy (str "equal-width") (str "useEqualWidthFeatureBinning")
        [mkOption (str "bin_ratio") GetFloat (str "set_bin_ratio") (str "get_bin_ratio");
         mkOption (str "min_bins") GetInt (str "set_min_bins") (str "get_min_bins");
         mkOption (str "max_bins") GetInt (str "set_max_bins") (str "get_max_bins")];
       mkStrategy (str "equal-frequency") (str "useEqualFrequencyFeatureBinning")
        [mkOption (str "bin_ratio") GetFloat (str "set_bin_ratio") (str "get_bin_ratio");
         mkOption (str "min_bins") GetInt (str "set_min_bins") (str "get_min_bins");
         mkOption (str "max_bins") GetInt (str "set_max_bins") (str "get_max_bins")]]);
   (str "statistic_format",
      [mkStrategy (str "auto") (str "useAutomaticStatistics") [];
       mkStrategy (str "dense") (str "useDenseStatistics") [];
       mkStrategy (str "sparse") (str "useSparseStatistics") []]);
   (str "parallel_rule_refinement",
      [mkStrategy (str "auto") (str "useAutomaticParallelRuleRefinement") [];
       mkStrategy (str "false") (str "useNoParallelRuleRefinement") [];
       mkStrategy (str "true") (str "useParallelRuleRefinement")
        [mkOption (str "num_preferred_threads") GetInt (str "set_num_preferred_threads")
           (str "get_num_preferred_threads")]]);
   (str "parallel_statistic_update",
      [mkStrategy (str "auto") (str "useAutomaticParallelStatisticUpdate") [];
       mkStrategy (str "false") (str "useNoParallelStatisticUpdate") [];
       mkStrategy (str "true") (str "useParallelStatisticUpdate")
        [mkOption (str "num_preferred_threads") GetInt (str "set_num_preferred_threads")
           (str "get_num_preferred_threads")]]);
   (str "parallel_prediction",
      [mkStrategy (str "false") (str "useNoParallelPrediction") [];
       mkStrategy (str "true") (str "useParallelPrediction")
        [mkOption (str "num_preferred_threads") GetInt (str "set_num_preferred_threads")
           (str "get_num_preferred_threads")]])].

(** The nominal parameters of [SeCoClassifier] (doc/user_guide/seco/parameters.md). The options of the pruning heuristics
    and the lift functions are not documented there, their names are taken from seco/mlrl/seco/config.py. *)
Definition documentedForSeCo : documentation :=
  [(str "heuristic",
      [mkStrategy (str "accuracy") (str "useAccuracyHeuristic") [];
       mkStrategy (str "precision") (str "usePrecisionHeuristic") [];
       mkStrategy (str "recall") (str "useRecallHeuristic") [];
       mkStrategy (str "laplace") (str "useLaplaceHeuristic") [];
       mkStrategy (str "weighted-relative-accuracy") (str "useWraHeuristic") [];
       mkStrategy (str "f-measure") (str "useFMeasureHeuristic")
        [mkOption (str "beta") GetFloat (str "set_beta") (str "get_beta")];
       mkStrategy (str "m-estimate") (str "useMEstimateHeuristic")
        [mkOption (str "m") GetFloat (str "set_m") (str "get_m")]]);
   (str "pruning_heuristic",
      [mkStrategy (str "accuracy") (str "useAccuracyPruningHeuristic") [];
       mkStrategy (str "precision") (str "usePrecisionPruningHeuristic") [];
       mkStrategy (str "recall") (str "useRecallPruningHeuristic") [];
       mkStrategy (str "laplace") (str "useLaplacePruningHeuristic") [];
       mkStrategy (str "weighted-relative-accuracy") (str "useWraPruningHeuristic") [];
       mkStrategy (str "f-measure") (str "useFMeasurePruningHeuristic")
        [mkOption (str "beta") GetFloat (str "set_beta") (str "get_beta")];
       mkStrategy (str "m-estimate") (str "useMEstimatePruningHeuristic")
        [mkOption (str "m") GetFloat (str "set_m") (str "get_m")]]);
   (str "lift_function",
      [mkStrategy (str "none") (str "useNoLiftFunction") [];
       mkStrategy (str "kln") (str "useKlnLiftFunction")
        [mkOption (str "k") GetFloat (str "set_k") (str "get_k")];
       mkStrategy (str "peak") (str "usePeakLiftFunction")
        [mkOption (str "peak_label") GetInt (str "set_peak_label") (str "get_peak_label");
         mkOption (str "max_lift") GetFloat (str "set_max_lift") (str "get_max_lift");
         mkOption (str "curvature") GetFloat (str "set_curvature") (str "get_curvature")]]);
   (str "default_rule",
      [mkStrategy (str "true") (str "useDefaultRule") [];
       mkStrategy (str "false") (str "useNoDefaultRule") []]);
   (str "rule_induction",
      [mkStrategy (str "top-down-greedy") (str "useGreedyTopDownRuleInduction")
        [mkOption (str "max_conditions") GetInt (str "set_max_conditions") (str "get_max_conditions");
         mkOption (str "min_coverage") GetInt (str "set_min_coverage") (str "get_min_coverage");
         mkOption (str "min_support") GetFloat (str "set_min_support") (str "get_min_support");
         mkOption (str "max_head_refinements") GetInt (str "set_max_head_refinements")
           (str "get_max_head_refinements");
         mkOption (str "recalculate_predictions") GetBool (str "set_recalculate_predictions")
           (str "are_predictions_recalculated")];
       mkStrategy (str "top-down-beam-search") (str "useBeamSearchTopDownRuleInduction")
        [mkOption (str "beam_width") GetInt (str "set_beam_width") (str "get_beam_width");
         mkOption (str "resample_features") GetBool (str "set_resample_features") (str "are_features_resampled");
         mkOption (str "max_conditions") GetInt (str "set_max_conditions") (str "get_max_conditions");
         mkOption (str "min_coverage") GetInt (str "set_min_coverage") (str "get_min_coverage");
         mkOption (str "min_support") GetFloat (str "set_min_support") (str "get_min_support");
         mkOption (str "max_head_refinements") GetInt (str "set_max_head_refinements")
           (str "get_max_head_refinements");
         mkOption (str "recalculate_predictions") GetBool (str "set_recalculate_predictions")
           (str "are_predictions_recalculated")]]);
   (str "head_type",
      [mkStrategy (str "single") (str "useSingleOutputHeads") [];
       mkStrategy (str "partial") (str "usePartialHeads") []]);
   (str "holdout",
      [mkStrategy (str "none") (str "useNoPartitionSampling") [];
       mkStrategy (str "auto") (str "useAutomaticPartitionSampling") [];
       mkStrategy (str "random") (str "useRandomBiPartitionSampling")
        [mkOption (str "holdout_set_size") GetFloat (str "set_holdout_set_size") (str "get_holdout_set_size")];
       mkStrategy (str "stratified-output-wise") (str "useOutputWiseStratifiedBiPartitionSampling")
        [mkOption (str "holdout_set_size") GetFloat (str "set_holdout_set_size") (str "get_holdout_set_size")];
       mkStrategy (str "stratified-example-wise") (str "useExampleWiseStratifiedBiPartitionSampling")
        [mkOption (str "holdout_set_size") GetFloat (str "set_holdout_set_size") (str "get_holdout_set_size")]]);
   (str "rule_pruning",
      [mkStrategy (str "none") (str "useNoRulePruning") [];
       mkStrategy (str "irep") (str "useIrepRulePruning") []]);
   (str "sequential_post_optimization",
      [mkStrategy (str "false") (str "useNoSequentialPostOptimization") [];
       mkStrategy (str "true") (str "useSequentialPostOptimization")
        [mkOption (str "num_iterations") GetInt (str "set_num_iterations") (str "get_num_iterations");
         mkOption (str "refine_heads") GetBool (str "set_refine_heads") (str "are_heads_refined");
         mkOption (str "resample_features") GetBool (str "set_resample_features") (str "are_features_resampled")]]);
   (str "output_sampling",
      [mkStrategy (str "none") (str "useNoOutputSampling") [];
       mkStrategy (str "round-robin") (str "useRoundRobinOutputSampling") [];
       mkStrategy (str "without-replacement") (str "useOutputSamplingWithoutReplacement")
        [mkOption (str "sample_size") GetFloat (str "set_sample_size") (str "get_sample_size");
         mkOption (str "min_samples") GetInt (str "set_min_samples") (str "get_min_samples");
         mkOption (str "max_samples") GetInt (str "set_max_samples") (str "get_max_samples")]]);
   (str "feature_sampling",
      [mkStrategy (str "none") (str "useNoFeatureSampling") [];
       mkStrategy (str "without-replacement") (str "useFeatureSamplingWithoutReplacement")
        [mkOption (str "sample_size") GetFloat (str "set_sample_size") (str "get_sample_size");
         mkOption (str "min_samples") GetInt (str "set_min_samples") (str "get_min_samples");
         mkOption (str "max_samples") GetInt (str "set_max_samples") (str "get_max_samples");
         mkOption (str "num_retained") GetInt (str "set_num_retained") (str "get_num_retained")]]);
   (str "instance_sampling",
      [mkStrategy (str "none") (str "useNoInstanceSampling") [];
       mkStrategy (str "with-replacement") (str "useInstanceSamplingWithReplacement")
        [mkOption (str "sample_size") GetFloat (str "set_sample_size") (str "get_sample_size");
         mkOption (str "min_samples") GetInt (str "set_min_samples") (str "get_min_samples");
         mkOption (str "max_samples") GetInt (str "set_max_samples") (str "get_max_samples")];
       mkStrategy (str "without-replacement") (str "useInstanceSamplingWithoutReplacement")
        [mkOption (str "sample_size") GetFloat (str "set_sample_size") (str "get_sample_size");
         mkOption (str "min_samples") GetInt (str "set_min_samples") (str "get_min_samples");
         mkOption (str "max_samples") GetInt (str "set_max_samples") (str "get_max_samples")];
       mkStrategy (str "stratified-output-wise") (str "useOutputWiseStratifiedInstanceSampling")
        [mkOption (str "sample_size") GetFloat (str "set_sample_size") (str "get_sample_size");
         mkOption (str "min_samples") GetInt (str "set_min_samples") (str "get_min_samples");
         mkOption (str "max_samples") GetInt (str "set_max_samples") (str "get_max_samples")];
       mkStrategy (str "stratified-example-wise") (str "useExampleWiseStratifiedInstanceSampling")
        [mkOption (str "sample_size") GetFloat (str "set_sample_size") (str "get_sample_size");
         mkOption (str "min_samples") GetInt (str "set_min_samples") (str "get_min_samples");
         mkOption (str "max_samples") GetInt (str "set_max_samples") (str "get_max_samples")]]);
   (str "feature_binning",
      [mkStrategy (str "none") (str "useNoFeatureBinning") [];
       mkStrategy (str "equal-width") (str "useEqualWidthFeatureBinning")
        [mkOption (str "bin_ratio") GetFloat (str "set_bin_ratio") (str "get_bin_ratio");
         mkOption (str "min_bins") GetInt (str "set_min_bins") (str "get_min_bins");
         mkOption (str "max_bins") GetInt (str "set_max_bins") (str "get_max_bins")];
       mkStrategy (str "equal-frequency") (str "useEqualFrequencyFeatureBinning")
        [mkOption (str "bin_ratio") GetFloat (str "set_bin_ratio") (str "get_bin_ratio");
         mkOption (str "min_bins") GetInt (str "set_min_bins") (str "get_min_bins");
         mkOption (str "max_bins") GetInt (str "set_max_bins") (str "get_max_bins")]]);
   (str "parallel_rule_refinement",
      [mkStrategy (str "false") (str "useNoParallelRuleRefinement") [];
       mkStrategy (str "true") (str "useParallelRuleRefinement")
        [mkOption (str "num_preferred_threads") GetInt (str "set_num_preferred_threads")
           (str "get_num_preferred_threads")]]);
   (str "parallel_statistic_update",
      [mkStrategy (str "false") (str "useNoParallelStatisticUpdate") [];
       mkStrategy (str "true") (str "useParallelStatisticUpdate")
        [mkOption (str "num_preferred_threads") GetInt (str "set_num_preferred_threads")
           (str "get_num_preferred_threads")]]);
   (str "parallel_prediction",
      [mkStrategy (str "false") (str "useNoParallelPrediction") [];
       mkStrategy (str "true") (str "useParallelPrediction")
        [mkOption (str "num_preferred_threads") GetInt (str "set_num_preferred_threads")
           (str "get_num_preferred_threads")]])].

(** The documented values of nominal parameters that are not supported or not implemented as documented. *)
Definition defectsOfClassifier : list (pystr * pystr) :=
  [(str "holdout", str "auto"); (str "head_type", str "auto"); (str "parallel_rule_refinement", str "auto");
   (str "parallel_statistic_update", str "auto"); (str "binary_predictor", str "auto")].

(** The same for [BoomerRegressor]. *)
Definition defectsOfRegressor : list (pystr * pystr) :=
  [(str "holdout", str "auto"); (str "head_type", str "auto"); (str "parallel_rule_refinement", str "auto");
   (str "parallel_statistic_update", str "auto")].

(** The same for [SeCoClassifier]. *)
Definition defectsOfSeCo : list (pystr * pystr) :=
  [(str "holdout", str "auto"); (str "default_rule", str "true"); (str "default_rule", str "false")].

(** What holds for all documented values of the nominal parameters of a rule learner, except for those given. *)
Definition nominalParametersWork (cls : learnerClass) (exceptions : list (pystr * pystr)) (d : documentation) : Prop :=
  forall A (env : environment A) name strategies s v ps before,
    In (name, strategies) d -> In s strategies -> ~ In (name, strategyValue s) exceptions ->
    written s (toStr env v) ps ->
    In name (attributes cls) /\
    exists p, In p (parametersOf cls) /\ nameOf p = name /\
      (wellTyped env s ps -> allAccepted env s ps ->
         exists calls, configure env (configOf cls) before p v = Ok calls /\ applied s ps before calls) /\
      ((exists o text, In o (strategyOptions s) /\ lastValue (optionKey o) ps = Some text /\
          convertible env (optionKind o) text = false) ->
       configure env (configOf cls) before p v = ValueError) /\
      configure env (configOf cls) before p v <> AttributeError.

(** Texts that are not documented are rejected by all nominal parameters of a rule learner. *)
Definition undocumentedRejected (cls : learnerClass) (d : documentation) : Prop :=
  forall A (env : environment A) name strategies v before p,
    In (name, strategies) d -> In p (parametersOf cls) -> nameOf p = name ->
    (forall x ps, ~ specifies (documentedValues strategies) (toStr env v) x ps) ->
    configure env (configOf cls) before p v = ValueError.

(** The parameters of a rule learner that are passed to the constructor are applied as documented, irrespective of the
    order in which the set of parameters is traversed. *)
Definition learnerConfigured (cls : learnerClass) (exceptions : list (pystr * pystr)) (d : documentation) : Prop :=
  forall A (env : environment A) defaults arguments learner order calls,
    createLearner cls defaults arguments = Some learner -> Permutation order (parametersOf cls) ->
    configureLearner env cls order learner = Ok calls ->
    forall name strategies s v ps,
      In (name, strategies) d -> In s strategies -> ~ In (name, strategyValue s) exceptions ->
      dictGet name arguments = Some v -> written s (toStr env v) ps -> allAccepted env s ps ->
      wellTyped env s ps /\
      exists earlier block later, calls = earlier ++ block ++ later /\ applied s ps earlier (earlier ++ block).

(** The conversion of the value of a numerical parameter. *)
Definition convertNumber {A : Type} (env : environment A) (k : kind) (v : A) : option Q :=
  match k with
  | GetInt => toInt env v
  | _ => toFloat env v
  end.

(** A numerical parameter is applied as documented, unless its value is not a number or is rejected by the setter. *)
Definition numberWorks (cls : learnerClass) (d : documentedNumber) : Prop :=
  forall A (env : environment A) v before,
    In (numberName d) (attributes cls) /\
    exists p, In p (parametersOf cls) /\ nameOf p = numberName d /\
      (forall q, convertNumber env (numberKind d) v = Some q ->
         accepts env (before ++ [CallUse (numberCpp d)]) (CallSet (numberCpp d) (numberSetter d) (Value q)) = true ->
         exists calls, configure env (configOf cls) before p v = Ok calls /\ appliedNumber d q before calls) /\
      (convertNumber env (numberKind d) v = None -> configure env (configOf cls) before p v = ValueError) /\
      configure env (configOf cls) before p v <> AttributeError.
