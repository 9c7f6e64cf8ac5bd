(** Model of building a model while training a boosted ensemble. Source: cpp/subprojects/common and cpp/subprojects/boosting. The
    conditions of the rules, the examples they cover and the examples and outputs their heads are calculated for are given. *)
From Coq Require Import Reals ZArith List Bool Arith.
From Verif Require Import Lib.Arr Model.Rules Model.Losses Model.BoostStatistics Model.BoostTraining Model.Prediction.
Import ListNotations.
Open Scope R_scope.

(** common/src/mlrl/common/rule_refinement/prediction_complete.cpp, lines 100-105, and prediction_partial.cpp, lines 146-152. *)
Definition createHead (p : prediction) : head R :=
  match p with CompletePrediction values => CompleteHead values | PartialPrediction indices values => PartialHead (combine indices values) end.

(** common/src/mlrl/common/rule_induction/rule_induction_top_down_greedy.cpp, lines 92-93, and boosting/src/mlrl/boosting/model/
    rule_list_builder.cpp, line 31: conditions are added to a list the body is created from, see Model/Rules.v. *)
Definition createBody (junkF : nat * fval) (junkI : nat * Z) (conditions : list condition) : option body :=
  let* l := forL conditions (fun c l => clAdd l c) clEmpty in
  let* b := clCreateBody junkF junkI l in
  Some (ConjunctiveBody b).

(** common/src/mlrl/common/rule_induction/rule_induction_common.hpp, lines 103-137, and rule_list_builder.cpp, lines 29-32: the head of
    a rule is applied to the examples it covers, afterwards the rule is added to the model. *)
Definition learnRule {T} (regression : bool) (update : T -> R -> R * R) (l1 l2 : R) (truth : list (list T)) (junkF : nat * fval)
    (junkI : nat * Z) (cr : list condition * BoostTraining.rule) (st : ruleList (Prediction.rule R) * training)
    : option (ruleList (Prediction.rule R) * training) :=
  let* p := predictRule l1 l2 (trStatistics (snd st)) (snd cr) in
  let* t := forL (ruleCovered (snd cr)) (applyToExample regression update truth p) (snd st) in
  let* b := createBody junkF junkI (fst cr) in
  Some (rlAddRule (fst st) (b, createHead p), t).

(** rule_induction_common.hpp, lines 77-101, rule_list_builder.cpp, lines 22-24, and common/src/mlrl/common/model/rule_list.cpp, lines
    118-120. *)
Definition learnDefaultRule {T} (regression : bool) (update : T -> R -> R * R) (l1 l2 : R) (truth : list (list T)) (r : BoostTraining.rule)
    (st : ruleList (Prediction.rule R) * training) : option (ruleList (Prediction.rule R) * training) :=
  let* p := predictRule l1 l2 (trStatistics (snd st)) r in
  let* t := forL (ruleCovered r) (applyToExample regression update truth p) (snd st) in
  Some (rlAddDefault (fst st) (EmptyBody, createHead p), t).

(** common/src/mlrl/common/rule_model_assemblage/rule_model_assemblage_sequential.cpp, lines 32-75, and rule_list_builder.cpp, lines 17
    and 37-39. When training stops and how many rules are used is given. *)
Definition learnModel {T} (regression : bool) (update : T -> R -> R * R) (l1 l2 : R) (truth : list (list T)) (numOutputs : nat)
    (junk : list (list (R * R))) (junkF : nat * fval) (junkI : nat * Z) (default : option BoostTraining.rule)
    (rules : list (list condition * BoostTraining.rule)) (numUsedRules : nat) : option (ruleList (Prediction.rule R) * training) :=
  let* t := startTraining update truth numOutputs junk in
  let* st := match default with
             | Some r => learnDefaultRule regression update l1 l2 truth r (rlEmpty true, t)
             | None => Some (rlEmpty true, t)
             end in
  let* (model, t) := forL rules (learnRule regression update l1 l2 truth junkF junkI) st in
  Some (rlSetNumUsed model numUsedRules, t).
