(** Model of lift functions and of the evaluation of rules by separate-and-conquer algorithms. Paths are relative to
    cpp/subprojects/seco/src/mlrl/seco. Values of type [float64] are real numbers; there is no rounding and no overflow. *)
From Coq Require Import Reals QArith Qreals ZArith Arith List Bool.
From Verif Require Import Lib.Arr Model.SecoStatistics.
Import ListNotations.
Open Scope R_scope.

(** ** Lift functions *)

(** lift_functions/lift_function_no.cpp, lines 11-17: the lift and the maximum lift. *)
Definition noLift (numLabels : nat) : R := 1.
(** See above (lift_functions/lift_function_no.cpp, lines 11-17). *)
Definition noMaxLift (numLabels : nat) : R := 1.

(** lift_functions/lift_function_kln.cpp, lines 7-9 and 31-33. *)
Definition klnLift (k : R) (numLabels : nat) : R := 1 + (k * ln (INR numLabels)).
(** lines 58-59 and 35-37. *)
Definition klnMaxLift (k : R) (totalLabels numLabels : nat) : R := klnLift k totalLabels.

(** The function [pow] for positive exponents. The result is not a number ([None]) if the base is negative and the exponent is
    not an integer. *)
Definition fpow (base : R) (exponent : Q) : option R :=
  if Req_EM_T base 0 then Some 0
  else if Rlt_dec 0 base then Some (Rpower base (Q2R exponent))
  else if Pos.eqb (Qden (Qred exponent)) 1 then Some (powerRZ base (Qnum (Qred exponent)))
  else None.

(** lift_functions/lift_function_peak.cpp, lines 10-26. *)
Definition peakLiftInternally (numLabels totalLabels peakLabel : nat) (maxLift : R) (exponent : Q) : option R :=
  if Nat.eqb numLabels peakLabel then Some maxLift
  else
    let normalization :=
      if Nat.ltb numLabels peakLabel then (INR numLabels - 1) / (INR peakLabel - 1)
      else (INR numLabels - INR totalLabels) / (INR totalLabels - INR peakLabel) in
    let* p := fpow normalization exponent in
    Some (1 + p * (maxLift - 1)).

(** lines 57-64. *)
Definition peakLift (totalLabels peakLabel : nat) (maxLift : R) (curvature : Q) (numLabels : nat) : option R :=
  peakLiftInternally numLabels totalLabels peakLabel maxLift (1 / curvature)%Q.

(** lines 101-108: the array [maxLiftsAfterPeak_]. The curvature is used as the exponent. *)
Definition maxLiftsAfterPeak (totalLabels peakLabel : nat) (maxLift : R) (curvature : Q) : list (option R) :=
  map (fun i => peakLiftInternally (i + peakLabel) totalLabels peakLabel maxLift curvature) (seq 0 (totalLabels - peakLabel)).

(** lines 66-72. *)
Definition peakMaxLift (totalLabels peakLabel : nat) (maxLift : R) (curvature : Q) (numLabels : nat) : option (option R) :=
  if Nat.ltb numLabels peakLabel then Some (Some maxLift)
  else aget (maxLiftsAfterPeak totalLabels peakLabel maxLift curvature) (numLabels - peakLabel).

(** lines 150-158: the peak label that results from the configuration. [labelCardinality]: rounded. *)
Definition configuredPeak (peakLabel numLabels labelCardinality : nat) : nat :=
  if Nat.ltb 0 peakLabel then Nat.min numLabels peakLabel else Nat.max labelCardinality 1.

(** ** Rule evaluation *)

(** A heuristic is a function of the confusion matrices of covered and uncovered examples. *)
Definition heuristicFunction := confusion -> confusion -> R.

(** rule_evaluation/rule_evaluation_decomposable_common.hpp, lines 21-29. *)
Definition outputQuality (h : heuristicFunction) (total covered : confusion) : R := h covered (cmMinus total covered).

(** rule_evaluation/rule_evaluation_decomposable_single.cpp, lines 42-72. Returns the index of the predicted label, the
    prediction and the quality. *)
Definition evaluateSingle (h : heuristicFunction) (majority indices : list nat) (total covered : list confusion) :
    option (nat * bool * R) :=
  let* bestIndex := aget indices 0 in
  let* t := aget total bestIndex in
  let* c := aget covered 0 in
  let* (bestIndex, bestQuality) := forN (length indices - 1) 1 (fun i st =>
    let* index := aget indices i in
    let* t := aget total index in
    let* c := aget covered i in
    let quality := outputQuality h t c in
    Some (if Rlt_dec (snd st) quality then (index, quality) else st)) (bestIndex, outputQuality h t c) in
  let* it := fwdAdvance (fwdNew majority) bestIndex 0 in
  Some (bestIndex, negb (fwdDeref it), bestQuality).

Section Lift.
Variables lift maxLift : nat -> R.

(** rule_evaluation/rule_evaluation_decomposable_partial.cpp, lines 14-17. *)
Definition liftedQuality (quality : R) (numPredictions : nat) : R := (quality / INR numPredictions) * lift numPredictions.

(** lines 49-75: the predictions and the quality of a rule that predicts for all of the given labels. *)
Definition evaluateComplete (h : heuristicFunction) (majority indices : list nat) (total covered : list confusion) :
    option (list bool * R) :=
  let* (_, _, scores, sum) := forN (length indices) 0 (fun i st =>
    let '(it, previousIndex, scores, sum) := st in
    let* index := aget indices i in
    let* it := fwdAdvance it index previousIndex in
    let* t := aget total index in
    let* c := aget covered i in
    Some (it, index, scores ++ [negb (fwdDeref it)], sum + outputQuality h t c)) (fwdNew majority, 0%nat, [], 0) in
  Some (scores, liftedQuality sum (length indices)).

(** An element of [sortedVector_]: the index of a label, its quality and the prediction. *)
Record entry : Type := mkEntry { eIndex : nat; eQuality : R; ePrediction : bool }.

(** lines 122-140. *)
Definition labelEntries (h : heuristicFunction) (majority indices : list nat) (total covered : list confusion) :
    option (list entry) :=
  let* (_, _, entries) := forN (length indices) 0 (fun i st =>
    let '(it, previousIndex, entries) := st in
    let* index := aget indices i in
    let* it := fwdAdvance it index previousIndex in
    let* t := aget total index in
    let* c := aget covered i in
    Some (it, index, entries ++ [mkEntry index (outputQuality h t c) (negb (fwdDeref it))])) (fwdNew majority, 0%nat, []) in
  Some entries.

(** lines 152-170: [rest] contains the entries that have not been processed yet. Returns the number of predictions and the
    quality. *)
Fixpoint searchPrefix (numElements : nat) (rest : list entry) (numPredictions : nat) (sumOfQualities bestQuality : R)
    (bestNum : nat) (maxLiftValue : R) : nat * R :=
  match rest with
  | [] => (bestNum, bestQuality)
  | e :: rest =>
      let numPredictions := S numPredictions in
      let sumOfQualities := sumOfQualities + eQuality e in
      let quality := liftedQuality sumOfQualities numPredictions in
      let '(bestQuality, bestNum, maxLiftValue) :=
        if Rlt_dec bestQuality quality then
          (quality, numPredictions, if Nat.ltb numPredictions numElements then maxLift numPredictions else maxLiftValue)
        else (bestQuality, bestNum, maxLiftValue) in
      if Rlt_dec (quality * maxLiftValue) bestQuality then (bestNum, bestQuality)
      else searchPrefix numElements rest numPredictions sumOfQualities bestQuality bestNum maxLiftValue
  end.

(** lines 147-183: [sorted] is the result of sorting the entries by their quality in descending order. Returns the indices of
    the predicted labels, the predictions and the quality. *)
Definition selectHead (sorted : list entry) : option (list nat * list bool * R) :=
  match sorted with
  | [] => None
  | e :: rest =>
      let '(num, quality) :=
        searchPrefix (length sorted) rest 1 (eQuality e) (liftedQuality (eQuality e) 1) 1 (maxLift 1) in
      Some (map eIndex (firstn num sorted), map ePrediction (firstn num sorted), quality)
  end.
End Lift.
