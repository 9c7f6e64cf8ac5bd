(** Model of stopping criteria, global pruning, the sequential assemblage of rules and the removal of unused rules. *)
From Coq Require Import ZArith QArith Arith List Bool.
From Verif Require Import Lib.Arr Model.Containers Model.Rules.
Import ListNotations.
Open Scope nat_scope.

(** cpp/subprojects/common/include/mlrl/common/stopping/stopping_criterion.hpp, lines 23-37. *)
Record result : Type := mkResult { rStop : bool; rNumUsed : nat }.
(** See above (cpp/subprojects/common/include/mlrl/common/stopping/stopping_criterion.hpp, lines 23-37). *)
Definition noResult : result := mkResult false 0.

(** ** Individual criteria *)

(** cpp/subprojects/common/src/mlrl/common/stopping/stopping_criterion_size.cpp, lines 21-29. *)
Definition sizeTest (maxRules numRules : nat) : result :=
  if maxRules <=? numRules then mkResult true 0 else noResult.

(** stopping_criterion_time.cpp, lines 32-48. [now]: the steady clock in nanoseconds. The state is [startTime_] if
    [timerStarted_], else [None]. [duration_cast<seconds>] truncates. *)
Definition timeTest (timeLimit : Z) (now : Z) (started : option Z) : result * option Z :=
  match started with
  | Some startTime =>
      (if (timeLimit <=? Z.quot (now - startTime) 1000000000)%Z then mkResult true 0 else noResult, Some startTime)
  | None => (noResult, Some now)
  end.

(** cpp/subprojects/common/include/mlrl/common/util/math.hpp, lines 52-55 (exact arithmetic). *)
Definition iterativeArithmeticMean (n : nat) (x mean : Q) : Q := (mean + (x - mean) / inject_Z (Z.of_nat n))%Q.

(** global_pruning_common.hpp, lines 23-35. [indices]: the elements of the partition. *)
Definition evaluateSingle (indices : list nat) (evaluatePrediction : nat -> Q) : option Q :=
  forN (length indices) 0 (fun i mean =>
    let* exampleIndex := aget indices i in
    Some (iterativeArithmeticMean (i + 1) (evaluatePrediction exampleIndex) mean)) 0%Q.

(** global_pruning_common.hpp, lines 49-70. *)
Definition evaluateBi (first second : list nat) (useHoldoutSet : bool) (evaluatePrediction : nat -> Q) : option Q :=
  let indices := if useHoldoutSet then second else first in
  forN (length indices) 0 (fun i mean =>
    let* exampleIndex := aget indices i in
    Some (iterativeArithmeticMean (i + 1) (evaluatePrediction exampleIndex) mean)) 0%Q.

(** [currentScore < bestScore_], where [None] is infinity. *)
Definition isBetter (currentScore : Q) (bestScore : option Q) : bool :=
  match bestScore with None => true | Some b => if Qlt_le_dec currentScore b then true else false end.

(** global_pruning_post.cpp, lines 44-58. The state consists of [bestScore_] and [bestNumRules_]; [currentScore] is the
    result of [evaluate]. *)
Definition postTest (minRules interval : nat) (currentScore : Q) (numRules : nat) (st : option Q * nat)
  : option (result * (option Q * nat)) :=
  if interval =? 0 then (if minRules <=? numRules then None else Some (noResult, st)) else
  if (minRules <=? numRules) && (numRules mod interval =? 0) then
    if isBetter currentScore (fst st) then Some (mkResult false numRules, (Some currentScore, numRules))
    else Some (noResult, st)
  else Some (noResult, st).

(** Lines 40-42. *)
Definition postInit (minRules : nat) : option Q * nat := (None, minRules).

(** aggregation_function_common.hpp, lines 34-97; [l]: the elements between [begin] and [end]. [begin[0]] is undefined
    for empty ranges. *)
Definition aggregateMin (l : list Q) : option Q :=
  let* first := aget l 0 in
  forN (length l - 1) 1 (fun i min =>
    let* value := aget l i in Some (if Qlt_le_dec value min then value else min)) first.
(** See above (aggregation_function_common.hpp, lines 34-97). *)
Definition aggregateMax (l : list Q) : option Q :=
  let* first := aget l 0 in
  forN (length l - 1) 1 (fun i max =>
    let* value := aget l i in Some (if Qlt_le_dec max value then value else max)) first.
(** See above (aggregation_function_common.hpp, lines 34-97). *)
Definition aggregateMean (l : list Q) : option Q :=
  forN (length l) 0 (fun i mean =>
    let* value := aget l i in Some (iterativeArithmeticMean (i + 1) value mean)) 0%Q.

(** cpp/subprojects/common/include/mlrl/common/stopping/aggregation_function.hpp and
    aggregation_function_common.hpp, lines 158-167. *)
Inductive aggregationFunction : Type := AggMin | AggMax | AggMean.
(** See above (aggregation_function_common.hpp, lines 158-167). *)
Definition aggregate (f : aggregationFunction) (l : list Q) : option Q :=
  match f with AggMin => aggregateMin l | AggMax => aggregateMax l | AggMean => aggregateMean l end.

(** global_pruning_pre.cpp, lines 18-30: parameters. *)
Record preConfig : Type := mkPreConfig {
  pcAggregation : aggregationFunction;
  pcRemoveUnused : bool;
  pcMinRules : nat;
  pcUpdateInterval : nat;
  pcStopInterval : nat;
  pcNumPast : nat;
  pcNumCurrent : nat;
  pcMinImprovement : Q }.

(** Lines 32-42: variables. *)
Record preState : Type := mkPreState {
  psPast : ring Q; psRecent : ring Q; psOffset : nat; psBestScore : option Q; psBestNumRules : nat; psStopped : bool }.

(** Lines 71-80. [junkPast], [junkRecent], [junkBest]: uninitialised memory; [bestNumRules_] is not initialised. *)
Definition preInit (c : preConfig) (junkPast junkRecent : list Q) (junkBest : nat) : preState :=
  let bufferInterval := pcNumPast c * pcUpdateInterval c + pcNumCurrent c * pcUpdateInterval c in
  mkPreState (rb_init junkPast) (rb_init junkRecent)
    (if bufferInterval <? pcMinRules c then pcMinRules c - bufferInterval else 0) None junkBest false.

(** Lines 99-102: [(past - recent) / recent < minImprovement_]. If the divisor is zero, the quotient is NaN or
    infinite. *)
Definition insufficientImprovement (past recent minImprovement : Q) : bool :=
  if Qeq_dec recent 0 then (if Qlt_le_dec past 0 then true else false)
  else if Qlt_le_dec ((past - recent) / recent) minImprovement then true else false.

(** Lines 82-118. *)
Definition preTest (c : preConfig) (currentScore : Q) (numRules : nat) (s : preState)
  : option (result * preState) :=
  if pcUpdateInterval c =? 0 then None else
  if negb (psStopped s) && (psOffset s <? numRules) && (numRules mod pcUpdateInterval c =? 0) then
    let* (r, s) :=
      (if rb_full (psPast s) then
         let s := if isBetter currentScore (psBestScore s)
                  then mkPreState (psPast s) (psRecent s) (psOffset s) (Some currentScore) numRules (psStopped s)
                  else s in
         if pcStopInterval c =? 0 then None else
         if numRules mod pcStopInterval c =? 0 then
           let* past := aggregate (pcAggregation c) (rb_elements (psPast s)) in
           let* recent := aggregate (pcAggregation c) (rb_elements (psRecent s)) in
           if insufficientImprovement past recent (pcMinImprovement c) then
             Some (mkResult (pcRemoveUnused c) (psBestNumRules s),
                   mkPreState (psPast s) (psRecent s) (psOffset s) (psBestScore s) (psBestNumRules s) true)
           else Some (noResult, s)
         else Some (noResult, s)
       else Some (noResult, s)) in
    let* ((first, second), recent) := rb_push (psRecent s) currentScore in
    let* past := (if first then let* (_, past) := rb_push (psPast s) second in Some past else Some (psPast s)) in
    Some (r, mkPreState past recent (psOffset s) (psBestScore s) (psBestNumRules s) (psStopped s))
  else Some (noResult, s).

(** Lines 126-145 and 172-177: the factory stores all parameters except for [removeUnusedRules], which remains
    uninitialised. Lines 179-191: it passes them to the criteria it creates. *)
Definition preFactory (junk : bool) (c : preConfig) : preConfig :=
  mkPreConfig (pcAggregation c) junk (pcMinRules c) (pcUpdateInterval c) (pcStopInterval c) (pcNumPast c)
    (pcNumCurrent c) (pcMinImprovement c).

(** Lines 239-253: the setters check that the update interval is at least one and that the stop interval is a multiple of
    it (common/include/mlrl/common/util/validation.hpp, lines 85-90); [None] is an exception. *)
Definition setUpdateInterval (c : preConfig) (v : nat) : option preConfig :=
  if 1 <=? v then Some (mkPreConfig (pcAggregation c) (pcRemoveUnused c) (pcMinRules c) v (pcStopInterval c)
    (pcNumPast c) (pcNumCurrent c) (pcMinImprovement c)) else None.
(** See above (global_pruning_pre.cpp, lines 239-253; common/include/mlrl/common/util/validation.hpp, lines 85-90). *)
Definition setStopInterval (c : preConfig) (v : nat) : option preConfig :=
  if v mod pcUpdateInterval c =? 0 then Some (mkPreConfig (pcAggregation c) (pcRemoveUnused c) (pcMinRules c)
    (pcUpdateInterval c) v (pcNumPast c) (pcNumCurrent c) (pcMinImprovement c)) else None.
(** Lines 194-196: the default configuration. *)
Definition preDefault : preConfig := mkPreConfig AggMean true 100 1 1 50 50 (5 # 1000).

(** Lines 202-284: the setters, except for [setUseHoldoutSet], and calls that fail because of an exception. *)
Inductive preCall : Type :=
  | SetAggregation (f : aggregationFunction) | SetRemoveUnused (b : bool) | SetMinRules (n : nat) | SetUpdate (n : nat)
  | SetStop (n : nat) | SetNumPast (n : nat) | SetNumCurrent (n : nat) | SetMinImprovement (q : Q).
(** See above (global_pruning_pre.cpp, lines 202-284). *)
Definition preCallResult (c : preConfig) (call : preCall) : option preConfig :=
  match call with
  | SetAggregation f => Some (mkPreConfig f (pcRemoveUnused c) (pcMinRules c) (pcUpdateInterval c) (pcStopInterval c)
      (pcNumPast c) (pcNumCurrent c) (pcMinImprovement c))
  | SetRemoveUnused b => Some (mkPreConfig (pcAggregation c) b (pcMinRules c) (pcUpdateInterval c) (pcStopInterval c)
      (pcNumPast c) (pcNumCurrent c) (pcMinImprovement c))
  | SetMinRules n => if 1 <=? n then Some (mkPreConfig (pcAggregation c) (pcRemoveUnused c) n (pcUpdateInterval c)
      (pcStopInterval c) (pcNumPast c) (pcNumCurrent c) (pcMinImprovement c)) else None
  | SetUpdate n => setUpdateInterval c n
  | SetStop n => setStopInterval c n
  | SetNumPast n => if 1 <=? n then Some (mkPreConfig (pcAggregation c) (pcRemoveUnused c) (pcMinRules c)
      (pcUpdateInterval c) (pcStopInterval c) n (pcNumCurrent c) (pcMinImprovement c)) else None
  | SetNumCurrent n => if 1 <=? n then Some (mkPreConfig (pcAggregation c) (pcRemoveUnused c) (pcMinRules c)
      (pcUpdateInterval c) (pcStopInterval c) (pcNumPast c) n (pcMinImprovement c)) else None
  | SetMinImprovement q => if Qle_bool 0 q && Qle_bool q 1 then Some (mkPreConfig (pcAggregation c) (pcRemoveUnused c)
      (pcMinRules c) (pcUpdateInterval c) (pcStopInterval c) (pcNumPast c) (pcNumCurrent c) q) else None
  end.
(** See above (global_pruning_pre.cpp, lines 202-284). *)
Definition applyPreCall (c : preConfig) (call : preCall) : preConfig :=
  match preCallResult c call with Some c' => c' | None => c end.

(** Calls [test] repeatedly for increasing numbers of rules. *)
Fixpoint runTests {St} (test : nat -> St -> option (result * St)) (cnt numRules : nat) (st : St)
  : option (list result * St) :=
  match cnt with
  | 0 => Some ([], st)
  | S cnt => let* (r, st) := test numRules st in
             let* (rs, st) := runTests test cnt (numRules + 1) st in
             Some (r :: rs, st)
  end.

(** ** Lists of criteria *)

(** stopping_criterion_list.cpp, lines 36-51. Each criterion is given by a state of some type [C] and a function. *)
Definition listTest {E C} (test : E -> nat -> C -> option (result * C)) (e : E) (numRules : nat) (criteria : list C)
  : option (result * list C) :=
  forN (length criteria) 0 (fun i '(r, criteria) =>
    let* c := aget criteria i in
    let* (cr, c') := test e numRules c in
    let* criteria := aset criteria i c' in
    let stop := rStop r || rStop cr in
    let numUsedRules := rNumUsed cr in
    Some (mkResult stop (if negb (numUsedRules =? 0) then numUsedRules else rNumUsed r), criteria))
    (noResult, criteria).

(** The available criteria with their parameters and variables; [partition]:
    common/include/mlrl/common/sampling/partition_single.hpp, lines 15-51, and partition_bi.hpp, lines 15-148. *)
Inductive partition : Type := Single (indices : list nat) | Bi (first second : list nat).

(** See above (common/include/mlrl/common/sampling/partition_single.hpp, lines 15-51; partition_bi.hpp, lines 15-148). *)
Inductive crit : Type :=
| CSize (maxRules : nat)
| CTime (timeLimit : Z) (started : option Z)
| CPost (p : partition) (useHoldoutSet : bool) (minRules interval : nat) (st : option Q * nat)
| CPre (p : partition) (useHoldoutSet : bool) (c : preConfig) (st : preState).

(** What the criteria observe: the clock and the quality of the current predictions per example. *)
Record env : Type := mkEnv { eNow : Z; eEvaluatePrediction : nat -> Q }.

Definition evaluatePartition (p : partition) (useHoldoutSet : bool) (evaluatePrediction : nat -> Q) : option Q :=
  match p with
  | Single indices => evaluateSingle indices evaluatePrediction
  | Bi first second => evaluateBi first second useHoldoutSet evaluatePrediction
  end.

(** Dynamic dispatch of [IStoppingCriterion::test]. The score is evaluated even if it is not needed, which has no effect
    as the evaluation is pure. *)
Definition critTest (e : env) (numRules : nat) (c : crit) : option (result * crit) :=
  match c with
  | CSize maxRules => Some (sizeTest maxRules numRules, c)
  | CTime timeLimit started =>
      let '(r, started) := timeTest timeLimit (eNow e) started in Some (r, CTime timeLimit started)
  | CPost p h minRules interval st =>
      let* score := evaluatePartition p h (eEvaluatePrediction e) in
      let* (r, st) := postTest minRules interval score numRules st in
      Some (r, CPost p h minRules interval st)
  | CPre p h c st =>
      let* score := evaluatePartition p h (eEvaluatePrediction e) in
      let* (r, st) := preTest c score numRules st in
      Some (r, CPre p h c st)
  end.

(** ** Sequential assemblage *)

(** cpp/subprojects/common/src/mlrl/common/post_optimization/model_builder_intermediate.cpp, lines 3-43: default rule,
    other rules, number of used rules. The same operations of the builders in
    boosting/src/mlrl/boosting/model/rule_list_builder.cpp, lines 10-47, and
    seco/src/mlrl/seco/model/decision_list_builder.cpp, lines 11-54, act on the rule list. *)
Record builder (R : Type) : Type := mkBuilder { bDefault : option R; bRules : list R; bNumUsed : nat }.
Arguments mkBuilder {R}. Arguments bDefault {R}. Arguments bRules {R}. Arguments bNumUsed {R}.

(** See above (cpp/subprojects/common/src/mlrl/common/post_optimization/model_builder_intermediate.cpp, lines 3-43;
    boosting/src/mlrl/boosting/model/rule_list_builder.cpp, lines 10-47; seco/src/mlrl/seco/model/decision_list_builder.cpp, lines
    11-54). *)
Definition bEmpty {R} : builder R := mkBuilder None [] 0.
(** See above (cpp/subprojects/common/src/mlrl/common/post_optimization/model_builder_intermediate.cpp, lines 3-43;
    boosting/src/mlrl/boosting/model/rule_list_builder.cpp, lines 10-47; seco/src/mlrl/seco/model/decision_list_builder.cpp, lines
    11-54). *)
Definition bSetDefault {R} (r : R) (b : builder R) : builder R := mkBuilder (Some r) (bRules b) (bNumUsed b).
(** See above (cpp/subprojects/common/src/mlrl/common/post_optimization/model_builder_intermediate.cpp, lines 3-43;
    boosting/src/mlrl/boosting/model/rule_list_builder.cpp, lines 10-47; seco/src/mlrl/seco/model/decision_list_builder.cpp, lines
    11-54). *)
Definition bAddRule {R} (r : R) (b : builder R) : builder R := mkBuilder (bDefault b) (bRules b ++ [r]) (bNumUsed b).
(** See above (cpp/subprojects/common/src/mlrl/common/post_optimization/model_builder_intermediate.cpp, lines 3-43;
    boosting/src/mlrl/boosting/model/rule_list_builder.cpp, lines 10-47; seco/src/mlrl/seco/model/decision_list_builder.cpp, lines
    11-54). *)
Definition bSetNumUsed {R} (n : nat) (b : builder R) : builder R := mkBuilder (bDefault b) (bRules b) n.
(** Lines 23-25; undefined for an empty list. *)
Definition bRemoveLast {R} (b : builder R) : option (builder R) :=
  match rev (bRules b) with
  | [] => None
  | _ :: rest => Some (mkBuilder (bDefault b) (rev rest) (bNumUsed b))
  end.
(** Lines 27-35. *)
Definition bGetNumRules {R} (b : builder R) : nat :=
  length (bRules b) + match bDefault b with Some _ => 1 | None => 0 end.

(** Lines 45-59, with the model builder of boosting ([precedence] = true) or separate-and-conquer (false). *)
Definition bBuild {R} (precedence : bool) (b : builder R) : ruleList R :=
  let l := rlEmpty precedence in
  let l := match bDefault b with Some r => rlAddDefault l r | None => l end in
  let l := fold_left rlAddRule (bRules b) l in
  rlSetNumUsed l (bNumUsed b).

(** cpp/subprojects/common/src/mlrl/common/rule_model_assemblage/rule_model_assemblage_sequential.cpp, lines 49-71.
    [T]: the training state (statistics, random generator, ...). [induce] tries to learn a rule. *)
Section Assemblage.
Context {R T C : Type} (test : T -> nat -> C -> option (result * C)) (induce : T -> option R * T).

(** [None]: undefined behaviour; [Some None]: out of fuel. The builder is returned with the number of used rules. *)
Fixpoint induceLoop (fuel : nat) (t : T) (c : C) (numRules numUsedRules : nat) (b : builder R)
  : option (option (builder R * nat * T)) :=
  match fuel with
  | 0 => Some None
  | S fuel =>
      let* (r, c) := test t numRules c in
      let numUsedRules := if negb (rNumUsed r =? 0) then rNumUsed r else numUsedRules in
      if rStop r then Some (Some (b, numUsedRules, t)) else
      match induce t with
      | (Some rule, t) => induceLoop fuel t c (numRules + 1) numUsedRules (bAddRule rule b)
      | (None, t) => Some (Some (b, numUsedRules, t))
      end
  end.

(** Lines 32-75. *)
Definition induceRules (fuel : nat) (defaultRule : option R) (t : T) (c : C) (b : builder R)
  : option (option (builder R * T)) :=
  let numRules := match defaultRule with Some _ => 1 | None => 0 end in
  let b := match defaultRule with Some r => bSetDefault r b | None => b end in
  let* res := induceLoop fuel t c numRules 0 b in
  match res with
  | None => Some None
  | Some (b, numUsedRules, t) => Some (Some (bSetNumUsed numUsedRules b, t))
  end.
End Assemblage.

(** cpp/subprojects/common/src/mlrl/common/post_optimization/post_optimization_unused_rule_removal.cpp, lines 19-30. The
    loop runs at most as often as there are rules plus one for the final test. *)
Fixpoint removeLoop {R} (fuel numUsedRules : nat) (b : builder R) : option (builder R) :=
  match fuel with
  | 0 => None
  | S fuel => if numUsedRules <? bGetNumRules b then let* b := bRemoveLast b in removeLoop fuel numUsedRules b
              else Some b
  end.

(** See above (cpp/subprojects/common/src/mlrl/common/post_optimization/post_optimization_unused_rule_removal.cpp, lines 19-30).
    *)
Definition removeUnusedRules {R} (b : builder R) : option (builder R) :=
  let numUsedRules := bNumUsed b in
  if 0 <? numUsedRules then
    let* b := removeLoop (bGetNumRules b + 1) numUsedRules b in
    Some (bSetNumUsed 0 b)
  else Some b.
