(** Model of the number of threads used by the individual parts of the algorithms. Paths are relative to cpp/subprojects/. The
    preprocessor is modelled as far as the macro [MULTI_THREADING_SUPPORT_ENABLED] is concerned. Which threads process which
    iterations of a loop is not modelled here (see Model/Predictors.v). *)
From Coq Require Import List Bool Arith.
From Verif Require Import Model.Predictors.
Import ListNotations.

(** The libraries: cpp/meson.build, lines 5-9. *)
Inductive library := CommonLibrary | BoostingLibrary | SecoLibrary.

(** The macro [MULTI_THREADING_SUPPORT_ENABLED] in the file config.hpp that is generated for a library, [None] if it is not
    defined. common/include/mlrl/common/config.hpp.in, lines 6-11 (the value is set in common/meson.build, lines 137 and 145),
    boosting/include/mlrl/boosting/config.hpp.in, lines 6-8 and seco/include/mlrl/seco/config.hpp.in, lines 6-8. [buildOption]:
    the build option "multi_threading_support". *)
Definition configMacro (lib : library) (buildOption : bool) : option nat :=
  match lib with
  | CommonLibrary => Some (if buildOption then 1 else 0)
  | BoostingLibrary => None
  | SecoLibrary => None
  end.

(** The condition of the directive [#if MULTI_THREADING_SUPPORT_ENABLED]: identifiers that are not macros are replaced by 0. *)
Definition macroCondition (macro : option nat) : bool :=
  match macro with Some value => negb (value =? 0) | None => false end.

(** The condition in code that is compiled as a part of a library. The headers common/include/mlrl/common/util/openmp.hpp, line 6,
    and common/include/mlrl/common/util/threads.hpp, line 6, include "config.hpp". The file is generated in the build directory
    of the library (common/meson.build, line 147, boosting/meson.build, line 109, and seco/meson.build, line 60), which is only
    searched when compiling the library itself; the only directory that is exported by the library "common" is "include"
    (common/meson.build, lines 122 and 192). *)
Definition multiThreadingSupport (lib : library) (buildOption : bool) : bool := macroCondition (configMacro lib buildOption).

(** Implementations of [IMultiThreadingConfig]: [decomposable] and [singleOutput] are provided by the configurations of the loss
    function and the rule heads, [sparse] by the feature matrix, [sampled] by the configuration of feature sampling. *)
Inductive threadingConfig :=
| NoMultiThreading
| ManualMultiThreading (preferred : nat)
| AutoRuleRefinement (decomposable singleOutput sparse sampled : bool)
| AutoStatisticUpdate (decomposable : bool).

(** [IMultiThreadingConfig::getSettings]: common/src/mlrl/common/multi_threading/multi_threading_no.cpp, lines 3-6,
    multi_threading_manual.cpp, lines 18-21, boosting/src/mlrl/boosting/multi_threading/parallel_rule_refinement_auto.cpp, lines
    12-25, and parallel_statistic_update_auto.cpp, lines 10-21. [cores]: [getNumAvailableCpuCores()]. *)
Definition getSettings (buildOption : bool) (cores : nat) (config : threadingConfig) (numOutputs : nat) : nat :=
  match config with
  | NoMultiThreading => 1
  | ManualMultiThreading preferred =>
      getNumAvailableThreads (multiThreadingSupport CommonLibrary buildOption) cores preferred
  | AutoRuleRefinement decomposable singleOutput sparse sampled =>
      if negb decomposable && negb singleOutput then 1
      else if sparse && negb sampled then 1
      else getNumAvailableThreads (multiThreadingSupport BoostingLibrary buildOption) cores 0
  | AutoStatisticUpdate decomposable =>
      if negb decomposable && (20 <=? numOutputs)
      then getNumAvailableThreads (multiThreadingSupport BoostingLibrary buildOption) cores 0
      else 1
  end.

(** Loops that may be executed by several threads. *)
Inductive task :=
| RuleRefinement            (* common/src/mlrl/common/rule_refinement/rule_refinement_statistics_based.cpp, lines 46-60 *)
| StatisticUpdate           (* common/src/mlrl/common/rule_refinement/feature_space_tabular.cpp, lines 280-289 and 300-309 *)
| StatisticInitialization   (* boosting/src/mlrl/boosting/statistics/statistics_provider_decomposable_dense.cpp, lines 25-33,
                               statistics_provider_decomposable_sparse.cpp, lines 100-108, and
                               statistics_provider_non_decomposable_dense.cpp, lines 163-170 *)
| StatisticConversion       (* statistics_provider_non_decomposable_dense.cpp, lines 120-138 *)
| BoostingPrediction        (* common/include/mlrl/common/prediction/predictor_common.hpp, lines 75-87 and 159-172 *)
| SecoPrediction.           (* as above *)

(** The library the code of a task is compiled as a part of: predictor_common.hpp consists of class templates that are
    instantiated by the predictors of the libraries "boosting" and "seco". *)
Definition taskLibrary (t : task) : library :=
  match t with
  | RuleRefinement | StatisticUpdate => CommonLibrary
  | StatisticInitialization | StatisticConversion | BoostingPrediction => BoostingLibrary
  | SecoPrediction => SecoLibrary
  end.

(** The number of threads that execute a loop: [numThreads] if the pragma is not removed by the preprocessor. (The name
    [numThreads] in statistics_provider_non_decomposable_dense.cpp, lines 123 and 165, is not declared.) *)
Definition usedThreads (buildOption : bool) (cores : nat) (t : task) (config : threadingConfig) (numOutputs : nat) : nat :=
  if multiThreadingSupport (taskLibrary t) buildOption then getSettings buildOption cores config numOutputs else 1.

(** The index that is passed to the delegates of predictors by the given thread: predictor_common.hpp, lines 81-85 and 165-169. *)
Definition predictionThread (buildOption : bool) (thread : nat) : nat :=
  getThreadIndex (multiThreadingSupport BoostingLibrary buildOption) thread.
