(** Model of the evaluation of rules by boosting algorithms. Paths are relative to cpp/subprojects/boosting/src/mlrl/boosting
    unless stated otherwise. Values of type [float64] are rational numbers; there is no rounding and no overflow. *)
From Coq Require Import QArith Qabs Reals Qreals List Bool Arith Permutation Sorted.
From Verif Require Import Lib.Arr Model.Sampling.
From Verif Require Model.SecoHeuristics.
Import ListNotations.
Open Scope Q_scope.

Definition gtb (a b : Q) : bool := negb (Qle_bool a b).
Definition ltb (a b : Q) : bool := negb (Qle_bool b a).

(** A gradient and a Hessian. *)
Notation tuple := (Q * Q)%type.

(** ** Decomposable loss functions *)

(** rule_evaluation/rule_evaluation_decomposable_common.hpp, lines 17-25. *)
Definition getL1RegularizationWeight (gradient l1 : Q) : Q :=
  if gtb gradient l1 then - l1 else if ltb gradient (- l1) then l1 else 0.

(** lines 37-42. *)
Definition calculateOutputWiseScore (l1 l2 : Q) (t : tuple) : Q :=
  SecoHeuristics.divideOrZero (- fst t + getL1RegularizationWeight (fst t) l1) (snd t + l2).

(** lines 55-62. *)
Definition calculateOutputWiseQuality (l1 l2 score : Q) (t : tuple) : Q :=
  let scorePow := score * score in
  let quality := fst t * score + (1 # 2) * snd t * scorePow in
  let l1Term := l1 * Qabs score in
  let l2Term := (1 # 2) * l2 * scorePow in
  quality + l1Term + l2Term.

(** The content of a score vector: the indices of outputs, the predicted scores and the quality. *)
Record scores : Type := mkScores { scIndices : list nat; scValues : list Q; scQuality : Q }.

(** rule_evaluation/rule_evaluation_decomposable_complete_common.hpp, lines 44-61. [indices]: the index vector passed to
    the constructor. *)
Definition evaluateComplete (l1 l2 : Q) (indices : list nat) (statistics : list tuple) : option scores :=
  let* (values, quality) := forN (length statistics) 0 (fun i '(values, quality) =>
    let* t := aget statistics i in
    let score := calculateOutputWiseScore l1 l2 t in
    Some (values ++ [score], quality + calculateOutputWiseQuality l1 l2 score t)) ([], 0) in
  Some (mkScores indices values quality).

(** rule_evaluation/rule_evaluation_decomposable_single.cpp, lines 45-71. *)
Definition evaluateSingle (l1 l2 : Q) (indices : list nat) (statistics : list tuple) : option scores :=
  let* first := aget statistics 0 in
  let* (bestScore, bestIndex) := forN (length statistics - 1) 1 (fun i '(bestScore, bestIndex) =>
    let* t := aget statistics i in
    let score := calculateOutputWiseScore l1 l2 t in
    Some (if gtb (Qabs score) (Qabs bestScore) then (score, i) else (bestScore, bestIndex)))
    (calculateOutputWiseScore l1 l2 first, 0%nat) in
  let* index := aget indices bestIndex in
  let* best := aget statistics bestIndex in
  Some (mkScores [index] [bestScore] (calculateOutputWiseQuality l1 l2 bestScore best)).

(** rule_evaluation/rule_evaluation_decomposable_partial_fixed_common.hpp, lines 53-59. *)
Definition outputWiseScores (l1 l2 : Q) (statistics : list tuple) : list (nat * Q) :=
  combine (seq 0 (length statistics)) (map (calculateOutputWiseScore l1 l2) statistics).

(** lines 61-62: a possible outcome of [std::partial_sort], which establishes the order according to [precedes] (lines 30-32)
    among the first [n] elements and between them and the remaining ones. *)
Definition precedes (a b : nat * Q) : Prop := Qabs (snd b) <= Qabs (snd a).
(** See above (rule_evaluation/rule_evaluation_decomposable_partial_fixed_common.hpp, lines 61-62;
    rule_evaluation/rule_evaluation_decomposable_partial_fixed_common.hpp, lines 30-32). *)
Definition partialSort (n : nat) (before after : list (nat * Q)) : Prop :=
  Permutation before after /\ (n <= length after)%nat /\ Sorted precedes (firstn n after) /\
  Forall (fun a => Forall (precedes a) (skipn n after)) (firstn n after).

(** rule_evaluation/rule_evaluation_decomposable_partial_fixed.cpp, lines 57-74. [sorted]: the outcome of the sorting. *)
Definition evaluateFixed (l1 l2 : Q) (numPredictions : nat) (indices : list nat) (statistics : list tuple)
    (sorted : list (nat * Q)) : option scores :=
  let* (predicted, values, quality) := forN numPredictions 0 (fun i '(predicted, values, quality) =>
    let* (index, score) := aget sorted i in
    let* outputIndex := aget indices index in
    let* t := aget statistics index in
    Some (predicted ++ [outputIndex], values ++ [score], quality + calculateOutputWiseQuality l1 l2 score t))
    ([], [], 0) in
  Some (mkScores predicted values quality).

(** rule_evaluation/rule_evaluation_decomposable_partial_dynamic_common.hpp, lines 24-45. *)
Definition getMinAndMaxScore (l1 l2 : Q) (statistics : list tuple) : option (Q * Q) :=
  let* first := aget statistics 0 in
  let first := Qabs (calculateOutputWiseScore l1 l2 first) in
  forN (length statistics - 1) 1 (fun i '(minAbsScore, maxAbsScore) =>
    let* t := aget statistics i in
    let absScore := Qabs (calculateOutputWiseScore l1 l2 t) in
    Some (if gtb absScore maxAbsScore then (minAbsScore, absScore)
          else if ltb absScore minAbsScore then (absScore, maxAbsScore) else (minAbsScore, maxAbsScore)))
    (first, first).

(** The function [pow] for positive exponents. It is only applied to bases that are not negative. *)
Definition pow (base exponent : Q) : R := if Qeq_bool base 0 then 0%R else Rpower (Q2R base) (Q2R exponent).

(** lines 57-60. *)
Definition calculateThreshold (minAbsScore maxAbsScore threshold exponent : Q) : R :=
  (pow (maxAbsScore - minAbsScore) exponent * Q2R threshold)%R.

(** lines 71-73. *)
Definition calculateWeightedScore (score minAbsScore exponent : Q) : R := pow (Qabs score - minAbsScore) exponent.

(** rule_evaluation/rule_evaluation_decomposable_partial_dynamic.cpp, lines 53 and 56-86. [threshold]: as configured. *)
Definition evaluateDynamic (l1 l2 threshold exponent : Q) (indices : list nat) (statistics : list tuple) : option scores :=
  let threshold_ := 1 - threshold in
  let* (minAbsScore, maxAbsScore) := getMinAndMaxScore l1 l2 statistics in
  let limit := calculateThreshold minAbsScore maxAbsScore threshold_ exponent in
  let* (predicted, values, quality) := forN (length statistics) 0 (fun i '(predicted, values, quality) =>
    let* t := aget statistics i in
    let score := calculateOutputWiseScore l1 l2 t in
    if Rge_dec (calculateWeightedScore score minAbsScore exponent) limit then
      let* outputIndex := aget indices i in
      Some (predicted ++ [outputIndex], values ++ [score], quality + calculateOutputWiseQuality l1 l2 score t)
    else Some (predicted, values, quality)) ([], [], 0) in
  Some (mkScores predicted values quality).
