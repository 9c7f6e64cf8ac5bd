(** Model of training a boosted ensemble, given which examples are covered by its rules and for which outputs they predict. Source:
    cpp/subprojects/common/src/mlrl/common/rule_induction/rule_induction_common.hpp,
    cpp/subprojects/common/src/mlrl/common/rule_refinement/feature_space_tabular.cpp and files in cpp/subprojects/boosting.
    Decomposable loss functions, dense statistics, no label binning. The sums of statistics are calculated for the outputs in the
    head of a rule only; in the code they may be calculated for other outputs as well, which are ignored. *)
From Coq Require Import Reals List Bool Arith.
From Verif Require Import Lib.Arr Model.Losses Model.BoostStatistics.
Import ListNotations.
Open Scope R_scope.

(** cpp/subprojects/boosting/src/mlrl/boosting/rule_evaluation/rule_evaluation_decomposable_common.hpp, lines 17-25. *)
Definition getL1Weight (gradient l1 : R) : R :=
  if Rgt_dec gradient l1 then - l1 else if Rlt_dec gradient (- l1) then l1 else 0.

(** Lines 37-42. *)
Definition outputWiseScore (l1 l2 : R) (statistics : R * R) : R :=
  divideOrZero (- fst statistics + getL1Weight (fst statistics) l1) (snd statistics + l2).

(** A rule: the weights and the examples its predictions are calculated from, the outputs it predicts for, the parameter
    [shrinkage] and the examples it covers. *)
Record rule := mkRule { ruleWeights : weightVector; ruleExamples : list nat; ruleOutputs : outputs; ruleShrinkage : R;
  ruleCovered : list nat }.

(** feature_space_tabular.cpp, lines 28-40, and rule_induction_common.hpp, lines 83-90: the sums of the statistics. *)
Definition sumStatistics (rows : list (list (R * R))) (r : rule) : option (list (R * R)) :=
  forL (ruleExamples r) (fun i sums =>
    let* weight := weightAt (ruleWeights r) i in
    let* row := aget rows i in
    denseAddToSubset row (ruleOutputs r) weight sums) (denseNew (numOutputs (ruleOutputs r))).

(** feature_space_tabular.cpp, lines 42-43, rule_evaluation_decomposable_complete_common.hpp, lines 44-61, and post-processing according
    to cpp/subprojects/boosting/src/mlrl/boosting/post_processing/shrinkage_constant.cpp, lines 25-31. *)
Definition predictRule (l1 l2 : R) (rows : list (list (R * R))) (r : rule) : option prediction :=
  let* sums := sumStatistics rows r in
  let values := map (fun s => outputWiseScore l1 l2 s * ruleShrinkage r) sums in
  Some (match ruleOutputs r with AllOutputs _ => CompletePrediction values | SomeOutputs indices => PartialPrediction indices values end).

(** cpp/subprojects/boosting/src/mlrl/boosting/statistics/statistics_decomposable_common.hpp, lines 14-23 and 49-59: the
    statistics of an example are updated for the outputs a rule predicts for. [regression]: whether the ground truth consists of
    scores, where indices are ignored, see [updatePartialRegression] in Model/Losses.v. *)
Definition updateRow {T} (regression : bool) (update : T -> R -> R * R) (p : prediction) (scores : list R) (truth : list T)
    (row : list (R * R)) : option (list (R * R)) :=
  let* (gradients, hessians) :=
    match p with
    | CompletePrediction _ => updateComplete update scores truth (length scores) (map fst row) (map snd row)
    | PartialPrediction indices _ =>
        if regression then updateComplete update scores truth (length indices) (map fst row) (map snd row)
        else updatePartial update scores truth indices (map fst row) (map snd row)
    end in
  Some (combine gradients hessians).

(** The scores and statistics of all examples. *)
Record training := mkTraining { trScores : list (list R); trStatistics : list (list (R * R)) }.

(** cpp/subprojects/boosting/src/mlrl/boosting/statistics/statistics_common.hpp, lines 459-471 and 516-524 (applyPrediction), for
    each covered example, in an arbitrary order (feature_space_tabular.cpp, lines 272-290). *)
Definition applyToExample {T} (regression : bool) (update : T -> R -> R * R) (truth : list (list T)) (p : prediction) (i : nat)
    (t : training) : option training :=
  let* scores := denseChange (Apply i p) (trScores t) in
  let* scoreRow := aget scores i in
  let* truthRow := aget truth i in
  let* row := aget (trStatistics t) i in
  let* row := updateRow regression update p scoreRow truthRow row in
  let* statistics := aset (trStatistics t) i row in
  Some (mkTraining scores statistics).

(** rule_induction_common.hpp, lines 77-101 and 119-137. *)
Definition applyRule {T} (regression : bool) (update : T -> R -> R * R) (l1 l2 : R) (truth : list (list T)) (r : rule) (t : training)
    : option training :=
  let* p := predictRule l1 l2 (trStatistics t) r in
  forL (ruleCovered r) (applyToExample regression update truth p) t.

(** cpp/subprojects/boosting/src/mlrl/boosting/statistics/statistics_provider_decomposable_dense.cpp, lines 15-33: scores are
    initialized with zeros, statistics are calculated for all examples. [junk]: the uninitialized statistics. *)
Definition startTraining {T} (update : T -> R -> R * R) (truth : list (list T)) (numOutputs : nat) (junk : list (list (R * R)))
    : option training :=
  let scores := repeat (repeat 0 numOutputs) (length truth) in
  let* statistics := forN (length truth) 0 (fun i statistics =>
    let* scoreRow := aget scores i in
    let* truthRow := aget truth i in
    let* row := aget statistics i in
    let* (gradients, hessians) := updateComplete update scoreRow truthRow numOutputs (map fst row) (map snd row) in
    aset statistics i (combine gradients hessians)) junk in
  Some (mkTraining scores statistics).

(** The rules are learned one after the other. *)
Definition train {T} (regression : bool) (update : T -> R -> R * R) (l1 l2 : R) (truth : list (list T)) (numOutputs : nat)
    (junk : list (list (R * R))) (rules : list rule) : option training :=
  let* t := startTraining update truth numOutputs junk in
  forL rules (applyRule regression update l1 l2 truth) t.
