(** Model of building a model while training a separate-and-conquer algorithm. Source: cpp/subprojects/common and cpp/subprojects/seco.
    The conditions of the rules, the examples they cover and their heads are given. *)
From Coq Require Import ZArith NArith List Bool Arith.
From Verif Require Import Lib.Arr Model.Rules Model.SecoStatistics Model.BoostModel Model.Prediction.
Import ListNotations.

(** common/src/mlrl/common/rule_refinement/prediction_complete.cpp, lines 100-105, and prediction_partial.cpp, lines 146-152. *)
Definition createSecoHead (h : SecoStatistics.head) : Prediction.head bool :=
  match h with
  | SecoStatistics.CompleteHead scores => Prediction.CompleteHead scores
  | SecoStatistics.PartialHead indices scores => Prediction.PartialHead (combine indices scores)
  end.

(** The conditions of a rule, the examples it covers, and its head. *)
Record secoRule : Type := mkSecoRule { srConditions : list condition; srCovered : list nat; srHead : SecoStatistics.head }.

(** The model, the head stored in [defaultHeadPtr_] (seco/src/mlrl/seco/model/decision_list_builder.cpp, lines 14-16) and the coverage
    matrix. *)
Record secoState : Type := mkSecoState { ssModel : ruleList (Prediction.rule bool); ssDefault : option (Prediction.head bool); ssCoverage : coverage }.

(** common/src/mlrl/common/rule_induction/rule_induction_common.hpp, lines 77-101, and decision_list_builder.cpp, lines 25-27. The
    default rule covers all examples. See Model/SecoStatistics.v for the confusion matrices, which do not affect its scores. *)
Definition learnSecoDefault (numExamples numLabels : nat) (majority : list nat) (st : secoState) : option secoState :=
  let* scores := majorityScores majority (seq 0 numLabels) in
  let h := SecoStatistics.CompleteHead scores in
  let* c := forN numExamples 0 (fun i c => applyPrediction numLabels i majority h c) (ssCoverage st) in
  Some (mkSecoState (ssModel st) (Some (createSecoHead h)) c).

(** rule_induction_common.hpp, lines 103-137, and decision_list_builder.cpp, lines 32-35. *)
Definition learnSecoRule (numLabels : nat) (majority : list nat) (junkF : nat * fval) (junkI : nat * Z) (r : secoRule) (st : secoState)
    : option secoState :=
  let* c := forL (srCovered r) (fun i c => applyPrediction numLabels i majority (srHead r) c) (ssCoverage st) in
  let* b := createBody junkF junkI (srConditions r) in
  Some (mkSecoState (rlAddRule (ssModel st) (b, createSecoHead (srHead r))) (ssDefault st) c).

(** decision_list_builder.cpp, lines 47-53. *)
Definition buildDecisionList (st : secoState) : ruleList (Prediction.rule bool) :=
  match ssDefault st with Some h => rlAddDefault (ssModel st) (EmptyBody, h) | None => ssModel st end.

(** common/src/mlrl/common/rule_model_assemblage/rule_model_assemblage_sequential.cpp, lines 32-75, seco/src/mlrl/seco/statistics/
    statistics_provider_decomposable_dense.cpp, lines 40-114, and decision_list_builder.cpp, lines 20 and 40-42. When training stops and
    how many rules are used is given. Returns the model and the coverage matrix. *)
Definition learnDecisionList (junk : list nat) (lm : labelMatrix) (junkF : nat * fval) (junkI : nat * Z) (useDefault : bool)
    (rules : list secoRule) (numUsedRules : nat) : option (ruleList (Prediction.rule bool) * coverage) :=
  let* (majority, sum) := createStatistics junk lm in
  let st := mkSecoState (rlEmpty false) None (newCoverage (lmRows lm) (lmCols lm) sum) in
  let* st := if useDefault then learnSecoDefault (lmRows lm) (lmCols lm) majority st else Some st in
  let* st := forL rules (learnSecoRule (lmCols lm) majority junkF junkI) st in
  let st := mkSecoState (rlSetNumUsed (ssModel st) numUsedRules) (ssDefault st) (ssCoverage st) in
  Some (buildDecisionList st, ssCoverage st).
