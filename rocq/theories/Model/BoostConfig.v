(** Model of how the boosting algorithm selects the statistics, the rule evaluation and the default rule, depending
    on its configuration and the characteristics of the ground truth.

    Sources (below /repo/cpp/subprojects):
    - boosting/src/mlrl/boosting/rule_model_assemblage/default_rule_auto.cpp
    - common/src/mlrl/common/rule_model_assemblage/default_rule.cpp
    - boosting/include/mlrl/boosting/statistics/statistic_format.hpp and
      boosting/src/mlrl/boosting/statistics/statistic_format_{auto,dense,sparse}.cpp
    - boosting/src/mlrl/boosting/losses/loss_*.cpp (the functions createXStatisticsProviderFactory) and the interfaces
      in boosting/include/mlrl/boosting/losses
    - boosting/src/mlrl/boosting/rule_evaluation/head_type_*.cpp
    - boosting/src/mlrl/boosting/binning/label_binning_{auto,no,equal_width}.cpp

    Simplifications: the numerical settings of the components (regularization weights, thresholds, number of bins,
    number of threads) are left out, they do not influence which components are selected. Each component is
    represented by a constructor that carries the name of its class. *)
From Coq Require Import Arith Bool.

(** The available losses (boosting/include/mlrl/boosting/losses/loss_decomposable_logistic.hpp, loss_decomposable_squared_hinge.hpp,
    loss_decomposable_squared_error.hpp, loss_non_decomposable_logistic.hpp, loss_non_decomposable_squared_hinge.hpp and
    loss_non_decomposable_squared_error.hpp, each starting at line 18). *)
Inductive loss : Type :=
  | DecomposableLogistic | DecomposableSquaredError | DecomposableSquaredHinge
  | NonDecomposableLogistic | NonDecomposableSquaredError | NonDecomposableSquaredHinge.

(** The values of the parameter [head_type] (boosting/include/mlrl/boosting/rule_evaluation/head_type_auto.hpp, line 19, head_type_complete.hpp,
    line 19, head_type_single.hpp, line 19, head_type_partial_fixed.hpp, line 85, head_type_partial_dynamic.hpp, line 72). *)
Inductive headType : Type := HeadAuto | HeadSingle | HeadPartialFixed | HeadPartialDynamic | HeadComplete.

(** The values of the parameter [statistic_format] (boosting/include/mlrl/boosting/statistics/statistic_format_auto.hpp, line 20,
    statistic_format_dense.hpp, line 17, statistic_format_sparse.hpp, line 18). *)
Inductive statisticFormat : Type := FormatAuto | FormatDense | FormatSparse.

(** The values of the parameter [default_rule] (default_rule_auto.cpp, lines 10-19, default_rule.hpp, lines 29-42). *)
Inductive defaultRule : Type := DefaultRuleAuto | DefaultRule (useDefaultRule : bool).

(** The values of the parameter [label_binning] (boosting/include/mlrl/boosting/binning/label_binning_auto.hpp, line 17, label_binning_no.hpp, line 17,
    label_binning_equal_width.hpp, line 80). *)
Inductive labelBinning : Type := BinningAuto | BinningNone | BinningEqualWidth.

(** The part of the configuration that is considered by the model. *)
Record config : Type := mkConfig {
  cfgLoss : loss;
  cfgHead : headType;
  cfgFormat : statisticFormat;
  cfgDefaultRule : defaultRule;
  cfgBinning : labelBinning }.

(** What is known about the ground truth, IOutputMatrix (common/include/mlrl/common/input/output_matrix.hpp, lines 12-37). *)
Record outputMatrix : Type := mkOutputMatrix { omIsSparse : bool; omNumOutputs : nat }.

(** Whether the ground truth consists of labels or regression scores. *)
Inductive problem : Type := Classification | Regression.

(** The implementations of IRuleEvaluation for decomposable and non-decomposable statistics
    (rule_evaluation/rule_evaluation_*.cpp). The flag specifies whether label binning is used. *)
Inductive evaluator : Type :=
  | DecomposableSingleOutput
  | DecomposableComplete (binned : bool)
  | DecomposableFixedPartial (binned : bool)
  | DecomposableDynamicPartial (binned : bool)
  | NonDecomposableComplete (binned : bool)
  | NonDecomposableFixedPartial (binned : bool)
  | NonDecomposableDynamicPartial (binned : bool).

(** The implementations of IClassificationStatisticsProviderFactory and IRegressionStatisticsProviderFactory
    (statistics/statistics_provider_*.cpp). *)
Inductive storage : Type :=
  | DenseDecomposable | SparseDecomposable | DenseNonDecomposable | DenseConvertibleNonDecomposable.

(** A statistics provider together with the rule evaluation that is used initially, for regular rules and for pruning
    (e.g., statistics_provider_decomposable_dense.cpp:33-78, statistics_provider_decomposable_sparse.cpp:115-144,
    statistics_provider_non_decomposable_dense.cpp). The provider for sparse statistics is initialized with the rule
    evaluation of regular rules. *)
Record provider : Type := mkProvider {
  pStorage : storage;
  pInitial : evaluator;
  pRegular : evaluator;
  pPruning : evaluator }.

(** ILossConfig::isDecomposable (loss_decomposable.hpp:239-241, loss_non_decomposable.hpp:146-148). *)
Definition isDecomposable (l : loss) : bool :=
  match l with
  | DecomposableLogistic | DecomposableSquaredError | DecomposableSquaredHinge => true
  | NonDecomposableLogistic | NonDecomposableSquaredError | NonDecomposableSquaredHinge => false
  end.

(** ILossConfig::isSparse (loss_decomposable.hpp:243-245, loss_decomposable_sparse.hpp:177-179,
    loss_non_decomposable.hpp:150-152). *)
Definition isSparse (l : loss) : bool :=
  match l with
  | DecomposableLogistic | DecomposableSquaredError => false
  | DecomposableSquaredHinge => true
  | NonDecomposableLogistic | NonDecomposableSquaredError | NonDecomposableSquaredHinge => true
  end.

(** IHeadConfig::isPartial (head_type_auto.cpp:69-71, head_type_single.cpp:144-146, head_type_partial_fixed.cpp,
    head_type_partial_dynamic.cpp:147-149, head_type_complete.cpp:114-116). *)
Definition isPartial (h : headType) (l : loss) : bool :=
  match h with
  | HeadAuto => isDecomposable l && isSparse l
  | HeadSingle | HeadPartialFixed | HeadPartialDynamic => true
  | HeadComplete => false
  end.

(** shouldSparseStatisticsBePreferred (statistic_format.hpp:25-28). *)
Definition shouldSparseStatisticsBePreferred (m : outputMatrix) (defaultRuleUsed partialHeadsUsed : bool) : bool :=
  omIsSparse m && Nat.ltb 120 (omNumOutputs m) && negb defaultRuleUsed && partialHeadsUsed.

(** IDefaultRuleConfig::isDefaultRuleUsed (default_rule_auto.cpp:10-19, default_rule.cpp:5-7). *)
Definition isDefaultRuleUsed (c : config) (m : outputMatrix) : bool :=
  match cfgDefaultRule c with
  | DefaultRule useDefaultRule => useDefaultRule
  | DefaultRuleAuto =>
      match cfgFormat c with
      | FormatDense => true
      | FormatSparse => negb (isSparse (cfgLoss c))
      | FormatAuto =>
          negb (isSparse (cfgLoss c))
          || negb (shouldSparseStatisticsBePreferred m false (isPartial (cfgHead c) (cfgLoss c)))
      end
  end.

(** The functions of ILabelBinningConfig that select an evaluator for decomposable statistics: the flag is true, if a
    "Binned" variant is created (label_binning_auto.cpp:13-32, label_binning_no.cpp:16-40,
    label_binning_equal_width.cpp:203-235). *)
Definition decomposableBinned (b : labelBinning) : bool :=
  match b with
  | BinningAuto | BinningNone => false
  | BinningEqualWidth => true
  end.

(** The functions of ILabelBinningConfig that select an evaluator for non-decomposable statistics
    (label_binning_auto.cpp:34-53, label_binning_no.cpp:42-70, label_binning_equal_width.cpp:237-270). *)
Definition nonDecomposableBinned (b : labelBinning) : bool :=
  match b with
  | BinningNone => false
  | BinningAuto | BinningEqualWidth => true
  end.

(** SingleOutputHeadConfig, decomposable losses (head_type_single.cpp:17-41, 92-116). *)
Definition singleDecomposable (b : labelBinning) : provider :=
  mkProvider DenseDecomposable (DecomposableComplete (decomposableBinned b))
             DecomposableSingleOutput DecomposableSingleOutput.

(** SingleOutputHeadConfig, sparse decomposable losses (head_type_single.cpp:43-64). *)
Definition singleSparse : provider :=
  mkProvider SparseDecomposable DecomposableSingleOutput DecomposableSingleOutput DecomposableSingleOutput.

(** SingleOutputHeadConfig, non-decomposable losses (head_type_single.cpp:66-90, 118-142). *)
Definition singleNonDecomposable (b : labelBinning) : provider :=
  mkProvider DenseConvertibleNonDecomposable (NonDecomposableComplete (nonDecomposableBinned b))
             DecomposableSingleOutput DecomposableSingleOutput.

(** FixedPartialHeadConfig, decomposable losses (head_type_partial_fixed.cpp:65-88, 137-160). *)
Definition fixedDecomposable (b : labelBinning) : provider :=
  mkProvider DenseDecomposable (DecomposableComplete (decomposableBinned b))
             (DecomposableFixedPartial (decomposableBinned b)) (DecomposableFixedPartial (decomposableBinned b)).

(** FixedPartialHeadConfig, sparse decomposable losses (head_type_partial_fixed.cpp:90-110). *)
Definition fixedSparse (b : labelBinning) : provider :=
  mkProvider SparseDecomposable (DecomposableFixedPartial (decomposableBinned b))
             (DecomposableFixedPartial (decomposableBinned b)) (DecomposableFixedPartial (decomposableBinned b)).

(** FixedPartialHeadConfig, non-decomposable losses (head_type_partial_fixed.cpp:112-135, 162-185). *)
Definition fixedNonDecomposable (b : labelBinning) : provider :=
  mkProvider DenseNonDecomposable (NonDecomposableComplete (nonDecomposableBinned b))
             (NonDecomposableFixedPartial (nonDecomposableBinned b))
             (NonDecomposableFixedPartial (nonDecomposableBinned b)).

(** DynamicPartialHeadConfig, decomposable losses (head_type_partial_dynamic.cpp:36-56, 101-121). *)
Definition dynamicDecomposable (b : labelBinning) : provider :=
  mkProvider DenseDecomposable (DecomposableComplete (decomposableBinned b))
             (DecomposableDynamicPartial (decomposableBinned b)) (DecomposableDynamicPartial (decomposableBinned b)).

(** DynamicPartialHeadConfig, sparse decomposable losses (head_type_partial_dynamic.cpp:58-75). *)
Definition dynamicSparse (b : labelBinning) : provider :=
  mkProvider SparseDecomposable (DecomposableDynamicPartial (decomposableBinned b))
             (DecomposableDynamicPartial (decomposableBinned b)) (DecomposableDynamicPartial (decomposableBinned b)).

(** DynamicPartialHeadConfig, non-decomposable losses (head_type_partial_dynamic.cpp:77-99, 123-145). *)
Definition dynamicNonDecomposable (b : labelBinning) : provider :=
  mkProvider DenseNonDecomposable (NonDecomposableComplete (nonDecomposableBinned b))
             (NonDecomposableDynamicPartial (nonDecomposableBinned b))
             (NonDecomposableDynamicPartial (nonDecomposableBinned b)).

(** CompleteHeadConfig, decomposable losses (head_type_complete.cpp:16-38, 70-91). *)
Definition completeDecomposable (b : labelBinning) : provider :=
  mkProvider DenseDecomposable (DecomposableComplete (decomposableBinned b))
             (DecomposableComplete false) (DecomposableComplete false).

(** CompleteHeadConfig, sparse decomposable losses (head_type_complete.cpp:40-46). *)
Definition completeSparse (b : labelBinning) : provider := completeDecomposable b.

(** CompleteHeadConfig, non-decomposable losses (head_type_complete.cpp:48-68, 93-112). *)
Definition completeNonDecomposable (b : labelBinning) : provider :=
  mkProvider DenseNonDecomposable (NonDecomposableComplete (nonDecomposableBinned b))
             (NonDecomposableComplete (nonDecomposableBinned b)) (NonDecomposableComplete (nonDecomposableBinned b)).

(** IHeadConfig::createXStatisticsProviderFactory, overloads for IDecomposableXLossConfig. AutomaticHeadConfig:
    head_type_auto.cpp:16-23, 50-57. *)
Definition headDecomposable (h : headType) (b : labelBinning) : provider :=
  match h with
  | HeadAuto => completeDecomposable b
  | HeadSingle => singleDecomposable b
  | HeadPartialFixed => fixedDecomposable b
  | HeadPartialDynamic => dynamicDecomposable b
  | HeadComplete => completeDecomposable b
  end.

(** IHeadConfig::createClassificationStatisticsProviderFactory, overload for
    ISparseDecomposableClassificationLossConfig. AutomaticHeadConfig: head_type_auto.cpp:25-38. *)
Definition headSparse (h : headType) (b : labelBinning) (m : outputMatrix) : provider :=
  match h with
  | HeadAuto => if Nat.ltb 1 (omNumOutputs m) then singleSparse else completeSparse b
  | HeadSingle => singleSparse
  | HeadPartialFixed => fixedSparse b
  | HeadPartialDynamic => dynamicSparse b
  | HeadComplete => completeSparse b
  end.

(** IHeadConfig::createXStatisticsProviderFactory, overloads for INonDecomposableXLossConfig. AutomaticHeadConfig:
    head_type_auto.cpp:40-48, 59-67. *)
Definition headNonDecomposable (h : headType) (b : labelBinning) : provider :=
  match h with
  | HeadAuto => completeNonDecomposable b
  | HeadSingle => singleNonDecomposable b
  | HeadPartialFixed => fixedNonDecomposable b
  | HeadPartialDynamic => dynamicNonDecomposable b
  | HeadComplete => completeNonDecomposable b
  end.

(** IClassificationLossConfig::createClassificationStatisticsProviderFactory (loss_decomposable_logistic.cpp:92-97,
    loss_decomposable_squared_error.cpp:63-68, loss_decomposable_squared_hinge.cpp:69-79,
    loss_non_decomposable_logistic.cpp:326-332, loss_non_decomposable_squared_error.cpp:386-392,
    loss_non_decomposable_squared_hinge.cpp:355-361). *)
Definition lossClassification (c : config) (m : outputMatrix) (preferSparseStatistics : bool) : provider :=
  match cfgLoss c with
  | DecomposableLogistic | DecomposableSquaredError => headDecomposable (cfgHead c) (cfgBinning c)
  | DecomposableSquaredHinge =>
      if preferSparseStatistics then headSparse (cfgHead c) (cfgBinning c) m
      else headDecomposable (cfgHead c) (cfgBinning c)
  | NonDecomposableLogistic | NonDecomposableSquaredError | NonDecomposableSquaredHinge =>
      headNonDecomposable (cfgHead c) (cfgBinning c)
  end.

(** IRegressionLossConfig::createRegressionStatisticsProviderFactory (loss_decomposable_squared_error.cpp:70-75,
    loss_non_decomposable_squared_error.cpp:394-400). [None], if the loss does not implement the interface. *)
Definition lossRegression (c : config) (m : outputMatrix) (preferSparseStatistics : bool) : option provider :=
  match cfgLoss c with
  | DecomposableSquaredError => Some (headDecomposable (cfgHead c) (cfgBinning c))
  | NonDecomposableSquaredError => Some (headNonDecomposable (cfgHead c) (cfgBinning c))
  | _ => None
  end.

(** The value of the argument [preferSparseStatistics] that is passed to a loss by the implementations of
    IStatisticsConfig (statistic_format_auto.cpp:17-21, 28-33, statistic_format_dense.cpp:14-15, 30-31,
    statistic_format_sparse.cpp:14-15, 22-23). *)
Definition preferSparseStatistics (c : config) (m : outputMatrix) : bool :=
  match cfgFormat c with
  | FormatAuto => shouldSparseStatisticsBePreferred m (isDefaultRuleUsed c m) (isPartial (cfgHead c) (cfgLoss c))
  | FormatDense => false
  | FormatSparse => true
  end.

(** IClassificationStatisticsConfig::createClassificationStatisticsProviderFactory and
    IRegressionStatisticsConfig::createRegressionStatisticsProviderFactory. *)
Definition createStatisticsProvider (p : problem) (c : config) (m : outputMatrix) : option provider :=
  match p with
  | Classification => Some (lossClassification c m (preferSparseStatistics c m))
  | Regression => lossRegression c m (preferSparseStatistics c m)
  end.

(** The rule evaluations that are used for the default rule, if there is one, and for the other rules. The default
    rule is induced with the initial rule evaluation (rule_model_assemblage_sequential.cpp:39-44); afterwards, the
    provider is switched to the evaluation of regular rules; rule pruning uses the one for pruning. *)
Record training : Type := mkTraining {
  trStorage : storage;
  trDefaultRule : option evaluator;
  trRules : evaluator;
  trPruning : evaluator }.

(** See above (rule_model_assemblage_sequential.cpp, lines 39-44). *)
Definition train (p : problem) (c : config) (m : outputMatrix) : option training :=
  match createStatisticsProvider p c m with
  | None => None
  | Some q =>
      Some (mkTraining (pStorage q) (if isDefaultRuleUsed c m then Some (pInitial q) else None)
                       (pRegular q) (pPruning q))
  end.
