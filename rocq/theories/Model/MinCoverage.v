(** Model of the minimum number of examples a rule must cover. Paths are relative to cpp/subprojects/common. *)
From Coq Require Import ZArith.
From Verif Require Import Model.Floats.
Open Scope Z_scope.

(** src/mlrl/common/rule_induction/rule_induction_top_down_greedy.cpp, lines 236-252, and
    src/mlrl/common/rule_induction/rule_induction_top_down_beam_search.cpp, lines 516-532: the argument [minCoverage] of the
    constructors, given the number of training examples, including those in the holdout set, and the values of the parameters
    [minCoverage] and [minSupport]. *)
Definition requiredCoverage (numExamples minCoverage : Z) (minSupport : float) : option Z :=
  if gtb minSupport (Finite 0) then calculateBoundedFraction numExamples minSupport minCoverage numExamples
  else Some (Z.min numExamples minCoverage).
