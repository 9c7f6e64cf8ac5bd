(** Model of rule pruning, of the induction of a single rule and of sequential post-optimization. *)
From Coq Require Import ZArith Arith List Bool.
From Verif Require Import Lib.Arr Model.Refinement.
Import ListNotations.
Open Scope nat_scope.

(** A condition, represented by the examples that satisfy it (one element per example). How the interval of a condition
    determines these examples is not part of this file. *)
Definition cond : Type := list bool.

(** A coverage mask (common/rule_refinement/coverage_mask.cpp, lines 6-22): the values of [operator[]] for all examples.
    The constructor (lines 6-7) and [reset] (lines 15-18) cover all examples. *)
Definition fullMask (numExamples : nat) : list bool := repeat true numExamples.

(** feature_space_tabular.cpp, lines 201-227, effect of [filterSubspace] on the coverage mask: examples that do not satisfy
    the condition are not covered anymore. *)
Fixpoint filterMask (mask : list bool) (c : cond) : list bool :=
  match mask, c with
  | m :: mask', b :: c' => (m && b) :: filterMask mask' c'
  | _, _ => []
  end.

(** ** IREP *)

(** rule_pruning_irep.cpp, lines 43-62, one iteration. The state consists of the coverage mask of the subspace,
    [bestQuality], the best coverage mask and [numPrunedConditions]. [evaluate] is [evaluateOutOfSample] for the given
    head. *)
Definition irepStep (k : learner) (evaluate : list bool -> Z) (conditions : list cond) (n : nat)
    (st : list bool * Z * list bool * nat) : option (list bool * Z * list bool * nat) :=
  let '(mask, bestQuality, bestMask, numPruned) := st in
  let* condition := aget conditions (n - 1) in
  let mask' := filterMask mask condition in
  let quality := evaluate mask' in
  if compare k quality bestQuality || ((numPruned =? 0) && negb (compare k bestQuality quality))
  then Some (mask', quality, mask', length conditions - n)
  else Some (mask', bestQuality, bestMask, numPruned).

(** lines 65-68, with condition_list.cpp: removal of the last condition; [None] if there is none. *)
Fixpoint removeLast (n : nat) (conditions : list cond) : option (list cond) :=
  match n with
  | O => Some conditions
  | S n' => match conditions with [] => None | _ => removeLast n' (removelast conditions) end
  end.

(** lines 20-72. [mask]: the coverage mask of the subspace. Returns the remaining conditions, the returned coverage mask,
    if any, and the coverage mask of the subspace afterwards. *)
Definition irep (k : learner) (evaluate : list bool -> Z) (conditions : list cond) (mask : list bool)
  : option (list cond * option (list bool) * list bool) :=
  let numConditions := length conditions in
  if 1 <? numConditions then
    let* (mask', _, bestMask, numPruned) :=
      forN (numConditions - 1) 1 (irepStep k evaluate conditions) (fullMask (length mask), evaluate mask, mask, 0) in
    let* conditions' := removeLast numPruned conditions in
    Some (conditions', Some bestMask, mask')
  else Some (conditions, None, mask).

(** ** Induction of a rule *)

(** rule_induction_common.hpp, lines 103-143, for a rule that has been grown successfully. [mask]: the coverage mask of the
    subspace returned by [growRule]. [pruning]: IREP instead of no pruning (rule_pruning_no.cpp, lines 9-12). Returns the
    conditions of the rule added to the model (line 136), the mask passed to [recalculatePrediction] (line 125), if it is
    called, and the mask of the examples to which the rule's predictions are applied (line 133 and
    feature_space_tabular.cpp, lines 272-290). *)
Definition induceRule (k : learner) (pruning recalculate hasZeroWeights : bool) (evaluate : list bool -> Z)
    (conditions : list cond) (mask : list bool) : option (list cond * option (list bool) * list bool) :=
  if hasZeroWeights then
    let* (conditions', maskPtr, mask') :=
      (if pruning then irep k evaluate conditions mask else Some (conditions, None, mask)) in
    let recalculated := match maskPtr with Some m => m | None => mask' end in
    Some (conditions', (if recalculate then Some recalculated else None), mask')
  else Some (conditions, None, mask).

(** ** Sequential post-optimization *)

(** A rule of the model: its conditions and the score it predicts (for a single output). *)
Definition srule : Type := (list cond * Z)%type.

(** feature_space_tabular.cpp, lines 272-290 and 292-310: the score is added to (or subtracted from) the current
    predictions for the covered examples. *)
Fixpoint addScore (mask : list bool) (score : Z) (predictions : list Z) : list Z :=
  match mask, predictions with
  | m :: mask', p :: predictions' => (if m then p + score else p)%Z :: addScore mask' score predictions'
  | _, _ => predictions
  end.

(** post_optimization_sequential.cpp, lines 78-123, for the rule at index [i]. [relearn n predictions rule]: the outcome of
    [induceRule] in the [n]-th iteration: [None] if it returns false, otherwise the new rule and the coverage mask of the
    examples its predictions are applied to. *)
Definition optimizeRule (numExamples : nat)
    (relearn : nat -> list Z -> srule -> option (srule * list bool)) (i : nat)
    (st : list srule * list Z * nat) : option (list srule * list Z * nat) :=
  let '(rules, predictions, n) := st in
  let* rule := aget rules i in
  let mask := fold_left filterMask (fst rule) (fullMask numExamples) in
  let reverted := addScore mask (- snd rule)%Z predictions in
  match relearn n reverted rule with
  | Some (newRule, newMask) =>
      let* rules' := aset rules i newRule in
      Some (rules', addScore newMask (snd newRule) reverted, n + 1)
  | None => Some (rules, reverted, n + 1)
  end.

(** lines 75-125. *)
Definition optimizeModel (numExamples numIterations : nat)
    (relearn : nat -> list Z -> srule -> option (srule * list bool)) (rules : list srule) (predictions : list Z)
  : option (list srule * list Z * nat) :=
  forN numIterations 0 (fun _ st =>
    forN (length rules) 0 (optimizeRule numExamples relearn) st) (rules, predictions, 0).
