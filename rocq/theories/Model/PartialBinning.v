(** Model of label binning for rules that predict for a variable number of outputs, with non-decomposable loss functions. Source:
    cpp/subprojects/boosting/src/mlrl/boosting/rule_evaluation/rule_evaluation_non_decomposable_partial_dynamic_binned.cpp.
    The other types of rules are modelled in Model/BoostBinning.v and Model/BoostNDBinning.v. *)
From Coq Require Import QArith Reals List Bool Arith.
From Verif Require Import Lib.Arr Model.BoostEvaluation Model.BoostBinning Model.BoostNonDecomposable Model.BoostNDBinning.
Import ListNotations.
Open Scope Q_scope.

(** Lines 32-62, 87-95 and 105-115. In lines 41-43, the scores of all outputs are written to [criteria], see
    rule_evaluation_non_decomposable_partial_dynamic_common.hpp, lines 26-51. In line 55, those that are selected are moved to the
    front of the array; as the position that is written does not exceed the one that is read, a separate list is used. *)
Definition evaluateDynamicBinnedND (nan : option nat) (dsysv : solver) (c : binningConfig) (l1 l2 threshold exponent : Q) (tmp : list Q)
    (s : ndBinnedState) (indices : list nat) (gradients hessians : list Q) : option (scores * ndBinnedState) :=
  let threshold_ := 1 - threshold in
  let* statistics := diagonal gradients hessians in
  let* (minAbsScore, maxAbsScore) := getMinAndMaxScore l1 l2 statistics in
  let limit := calculateThreshold minAbsScore maxAbsScore threshold_ exponent in
  let* (predicted, criteria) := forN (length statistics) 0 (fun i '(predicted, criteria) =>
    let* t := aget statistics i in
    let score := calculateOutputWiseScore l1 l2 t in
    if Rge_dec (calculateWeightedScore score minAbsScore exponent) limit then
      let* outputIndex := aget indices i in
      Some (predicted ++ [outputIndex], criteria ++ [score])
    else Some (predicted, criteria)) ([], []) in
  evaluateBinsND nan dsysv c (getMaxBins c (length indices)) l1 l2 tmp s predicted gradients hessians criteria (length predicted).
