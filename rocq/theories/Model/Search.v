(** Model of the search for the best conditions that use a given feature (nominal, binary, ordinal, numerical and binned
    feature vectors). *)
From Coq Require Import ZArith Arith List Bool.
From Verif Require Import Lib.Arr.
Import ListNotations.
Open Scope nat_scope.

(** Feature values, int32 or float32, are only compared by the searches and are represented by integers. NaN is not
    modelled (missing values are kept apart from the others, see feature_type_numerical_common.hpp, lines 15-58). *)

(** common/model/condition.hpp, lines 10-81: the comparator and the threshold of a condition. [LeqMean a b] and
    [GrMean a b] stand for NUMERICAL_LEQ and NUMERICAL_GR with the threshold [util::arithmeticMean(a, b)], which is taken
    to be exact here (rounding is the subject of property C35). *)
Inductive test : Type :=
  | Eq (v : Z) | Neq (v : Z) | Leq (v : Z) | Gr (v : Z) | LeqMean (a b : Z) | GrMean (a b : Z).

(** A condition passed to [comparator.isImprovement] and [comparator.pushRefinement]: [eScored] are the statistics the
    scores are calculated from, the remaining fields are those of the refinement (common/rule_refinement/refinement.hpp,
    lines 14-34, and condition.hpp, lines 33-81). *)
Record evaluated : Type :=
  mkEval { eScored : list nat; eStart : nat; eEnd : nat; eInverse : bool; eCovered : nat; eTest : test }.

(** IResettableStatisticsSubset (common/statistics/statistics_subset_resettable.hpp, lines 14-70): the statistics in the subset and the accumulated
    ones, [None] until [resetSubset] has been called. *)
Record subset : Type := mkSubset { ssCurrent : list nat; ssAccumulated : option (list nat) }.

(** boosting/statistics/statistics_common.hpp, lines 130-182, and seco/statistics/statistics_common.hpp, lines 321-364. *)
Definition emptySubset : subset := mkSubset [] None.

(** boosting/statistics/statistics_common.hpp, lines 114-116, and seco/statistics/statistics_common.hpp, lines 152-155:
    [addToSubset]. *)
Definition addToSubset (i : nat) (s : subset) : subset := mkSubset (ssCurrent s ++ [i]) (ssAccumulated s).

(** ibid., lines 189-202 and 371-382: [resetSubset] adds the current statistics to the accumulated ones and clears them. *)
Definition resetSubset (s : subset) : subset :=
  mkSubset [] (Some ((match ssAccumulated s with Some l => l | None => [] end) ++ ssCurrent s)).

Section Search.
(** [hasNonZeroWeight], the statistics the total sums consist of, [numExamplesWithNonZeroWeights], [minCoverage] and
    [isEqual] (common/data/types.hpp, lines 46-50). *)
Variable weight : nat -> bool.
Variable total : list nat.
Variable numWeighted : nat.
Variable minCoverage : nat.
Variable isEqual : Z -> Z -> bool.

(** Lines 214-225 and 396-414: [calculateScoresUncovered] subtracts the sums of the subset from the total sums. *)
Definition uncovered (covered : list nat) : list nat :=
  filter (fun i => negb (existsb (Nat.eqb i) covered)) total.

(** feature_based_search_binned_common.hpp, lines 19-39. *)
Definition addAllToSubset (indices : list nat) (s : subset) : subset * nat :=
  let '(s, numUncovered) :=
    fold_left (fun '(s, numUncovered) i =>
      if weight i then (addToSubset i s, numUncovered) else (s, numUncovered + 1)) indices (s, 0) in
  (s, length indices - numUncovered).

(** feature_based_search_nominal.hpp, lines 25-39: a condition is evaluated if it covers enough examples. *)
Definition consider (e : evaluated) (l : list evaluated) : list evaluated :=
  if minCoverage <=? eCovered e then l ++ [e] else l.

(** lines 25-58: evaluates a condition and its negation, using the statistics in the subset. *)
Definition evaluate (s : subset) (start end_ numCovered : nat) (t1 t2 : test) (l : list evaluated) : list evaluated :=
  let l := consider (mkEval (ssCurrent s) start end_ false numCovered t1) l in
  consider (mkEval (uncovered (ssCurrent s)) start end_ true (numWeighted - numCovered) t2) l.

(** lines 69-103: the same, using the accumulated statistics. [None] if there are none (a null pointer is
    dereferenced). *)
Definition evaluateAccumulated (s : subset) (start end_ numCovered : nat) (t1 t2 : test) (l : list evaluated)
  : option (list evaluated) :=
  let* l := (if minCoverage <=? numCovered then
               let* acc := ssAccumulated s in Some (l ++ [mkEval acc start end_ false numCovered t1])
             else Some l) in
  if minCoverage <=? numWeighted - numCovered then
    let* acc := ssAccumulated s in
    Some (l ++ [mkEval (uncovered acc) start end_ true (numWeighted - numCovered) t2])
  else Some l.

(** ** Nominal features *)

(** feature_based_search_nominal.hpp, lines 11-104. [values] and [bins] are the minority values and the examples that
    have them (feature_vector_nominal.hpp). *)
Definition searchNominal (values : list Z) (bins : list (list nat)) (majority : Z) : option (list evaluated) :=
  let numValues := length values in
  let* (s, numMinority, l) :=
    forN numValues 0 (fun i '(s, numMinority, l) =>
      let* ids := aget bins i in
      let '(s, numCovered) := addAllToSubset ids s in
      let* v := aget values i in
      let l := evaluate s i (i + 1) numCovered (Eq v) (Neq v) l in
      Some (resetSubset s, numMinority + numCovered, l)) (emptySubset, 0, []) in
  evaluateAccumulated s 0 numValues numMinority (Neq majority) (Eq majority) l.

(** feature_based_search_binary.hpp, lines 11-56. *)
Definition searchBinary (minority majority : Z) (ids : list nat) : list evaluated :=
  let '(s, numCovered) := addAllToSubset ids emptySubset in
  evaluate s 0 1 numCovered (Eq minority) (Eq majority) [].

(** ** Ordinal features *)

(** feature_based_search_ordinal.hpp, lines 30-76; [cnt] iterations are left. *)
Fixpoint ordinalUp (values : list Z) (bins : list (list nat)) (majority : Z) (cnt i : nat) (previous : Z)
  (numCovered : nat) (s : subset) (l : list evaluated) : option (nat * Z * nat * subset * list evaluated) :=
  match cnt with
  | O => Some (i, previous, numCovered, s, l)
  | S cnt' =>
      let* current := aget values i in
      if (majority <=? current)%Z then Some (i, previous, numCovered, s, l)
      else
        let l := evaluate s 0 i numCovered (Leq previous) (Gr previous) l in
        let* ids := aget bins i in
        let '(s, n) := addAllToSubset ids s in
        ordinalUp values bins majority cnt' (i + 1) current (numCovered + n) s l
  end.

(** lines 95-137; [i] runs from [first + cnt - 1] down to [first]. *)
Fixpoint ordinalDown (values : list Z) (bins : list (list nat)) (first cnt numCovered : nat) (s : subset)
  (l : list evaluated) : option (nat * subset * list evaluated) :=
  match cnt with
  | O => Some (numCovered, s, l)
  | S cnt' =>
      let i := first + cnt' in
      let* current := aget values i in
      let l := evaluate s (i + 1) (length values) numCovered (Gr current) (Leq current) l in
      let* ids := aget bins i in
      let '(s, n) := addAllToSubset ids s in
      ordinalDown values bins first cnt' (numCovered + n) s l
  end.

(** lines 11-215. *)
Definition searchOrdinal (values : list Z) (bins : list (list nat)) (majority : Z) : option (list evaluated) :=
  let numValues := length values in
  let* previous := aget values 0 in
  let* (s, numCovered) :=
    (if (previous <? majority)%Z then let* ids := aget bins 0 in Some (addAllToSubset ids emptySubset)
     else Some (emptySubset, 0)) in
  let* (first, lastLess, numLess, s, l) :=
    (if 0 <? numCovered then
       let* (i, previous, numCovered, s, l) :=
         ordinalUp values bins majority (numValues - 1) 1 previous numCovered s [] in
       Some (i, previous, numCovered, resetSubset s, l)
     else Some (0, previous, numCovered, s, [])) in
  let* last := aget values (numValues - 1) in
  let* (s, numCovered) :=
    (if (majority <? last)%Z then let* ids := aget bins (numValues - 1) in Some (addAllToSubset ids s)
     else Some (s, 0)) in
  let* (numCovered, s, l) :=
    (if 0 <? numCovered then ordinalDown values bins first (numValues - 1 - first) numCovered s l
     else Some (numCovered, s, l)) in
  let l := evaluate s first numValues numCovered (Gr majority) (Leq majority) l in
  if (0 <? numLess) && (numLess <? numWeighted) then
    evaluateAccumulated s 0 first numLess (Leq lastLess) (Gr lastLess) l
  else Some l.

(** ** Numerical features *)

(** feature_based_search_numerical.hpp, lines 24-41: finds the first example with a value less than the sparse value and
    a non-zero weight; returns [i] and that example's index and value. *)
Fixpoint numericalFirst (v : list (nat * Z)) (sparseValue : Z) (cnt i : nat) : option (nat * option (nat * Z)) :=
  match cnt with
  | O => Some (i, None)
  | S cnt' =>
      let* (index, current) := aget v i in
      if negb (current <? sparseValue)%Z then Some (i, None)
      else if weight index then Some (i, Some (index, current))
      else numericalFirst v sparseValue cnt' (i + 1)
  end.

(** lines 45-104. *)
Fixpoint numericalUp (v : list (nat * Z)) (sparseValue : Z) (cnt i : nat) (previous : Z) (numCovered : nat) (s : subset)
  (l : list evaluated) : option (nat * Z * nat * subset * list evaluated) :=
  match cnt with
  | O => Some (i, previous, numCovered, s, l)
  | S cnt' =>
      let* (index, current) := aget v i in
      if negb (current <? sparseValue)%Z then Some (i, previous, numCovered, s, l)
      else
        let '(numCovered, s, l) :=
          if weight index then
            (numCovered + 1, addToSubset index s,
             if isEqual previous current then l
             else evaluate s 0 i numCovered (LeqMean previous current) (GrMean previous current) l)
          else (numCovered, s, l) in
        numericalUp v sparseValue cnt' (i + 1) current numCovered s l
  end.

(** lines 117-128: [i] runs from [first + cnt - 1] down to [first]. *)
Fixpoint numericalLast (v : list (nat * Z)) (first cnt : nat) : option (option (nat * nat * Z)) :=
  match cnt with
  | O => Some None
  | S cnt' =>
      let* (index, current) := aget v (first + cnt') in
      if weight index then Some (Some (first + cnt', index, current)) else numericalLast v first cnt'
  end.

(** lines 132-186: [i] runs from [first + cnt] down to [first + 1]. *)
Fixpoint numericalDown (v : list (nat * Z)) (first cnt : nat) (previous : Z) (numCovered : nat) (s : subset)
  (l : list evaluated) : option (Z * nat * subset * list evaluated) :=
  match cnt with
  | O => Some (previous, numCovered, s, l)
  | S cnt' =>
      let i := first + cnt in
      let* (index, current) := aget v i in
      let '(numCovered, s, l) :=
        if weight index then
          (numCovered + 1, addToSubset index s,
           if isEqual previous current then l
           else evaluate s (i + 1) (length v) numCovered (GrMean current previous) (LeqMean current previous) l)
        else (numCovered, s, l) in
      numericalDown v first cnt' current numCovered s l
  end.

(** lines 11-294. The vector is sorted (feature_type_numerical_common.hpp, lines 15-58). *)
Definition searchNumerical (v : list (nat * Z)) (sparseValue : Z) (sparse : bool) : option (list evaluated) :=
  let n := length v in
  let* (i, found) := numericalFirst v sparseValue n 0 in
  let* (first, lastLess, numLess, s, l) :=
    match found with
    | Some (index, previous) =>
        let* (i, previous, numCovered, s, l) :=
          numericalUp v sparseValue (n - (i + 1)) (i + 1) previous 1 (addToSubset index emptySubset) [] in
        Some (i, previous, numCovered, resetSubset s, l)
    | None => Some (i, sparseValue, 0, emptySubset, [])
    end in
  let* found := numericalLast v first (n - first) in
  let* (previous, numCovered, s, l) :=
    match found with
    | Some (i, index, previous) =>
        let s := addToSubset index s in
        if 0 <? i then numericalDown v first (i - 1 - first) previous 1 s l else Some (previous, 1, s, l)
    | None => Some (lastLess, 0, s, l)
    end in
  let l :=
    if sparse then
      evaluate s first n numCovered (GrMean sparseValue previous) (LeqMean sparseValue previous) l
    else l in
  if (0 <? numLess) && (numLess <? numWeighted) then
    let other := if sparse then sparseValue else previous in
    evaluateAccumulated s 0 first numLess (LeqMean lastLess other) (GrMean lastLess other) l
  else Some l.

(** ** Binned features *)

(** feature_based_search_binned.hpp, lines 29-68; [i] runs up to [i + cnt - 1]. Thresholds are only read if a condition
    is an improvement; here they are read whenever a condition is evaluated. *)
Definition evaluateAt (s : subset) (start end_ numCovered : nat) (threshold : option Z) (greater : bool)
  (l : list evaluated) : option (list evaluated) :=
  if (minCoverage <=? numCovered) || (minCoverage <=? numWeighted - numCovered) then
    let* t := threshold in
    Some (if greater then evaluate s start end_ numCovered (Gr t) (Leq t) l
          else evaluate s start end_ numCovered (Leq t) (Gr t) l)
  else Some l.

(** See above (feature_based_search_binned.hpp, lines 29-68). *)
Fixpoint binnedUp (thresholds : list Z) (bins : list (list nat)) (cnt i numCovered : nat) (s : subset)
  (l : list evaluated) : option (nat * subset * list evaluated) :=
  match cnt with
  | O => Some (numCovered, s, l)
  | S cnt' =>
      let* l := evaluateAt s 0 i numCovered (aget thresholds (i - 1)) false l in
      let* ids := aget bins i in
      let '(s, n) := addAllToSubset ids s in
      binnedUp thresholds bins cnt' (i + 1) (numCovered + n) s l
  end.

(** lines 85-124; [i] runs from [sparseBin + cnt] down to [sparseBin + 1]. *)
Fixpoint binnedDown (thresholds : list Z) (bins : list (list nat)) (sparseBin cnt numCovered : nat) (s : subset)
  (l : list evaluated) : option (nat * subset * list evaluated) :=
  match cnt with
  | O => Some (numCovered, s, l)
  | S cnt' =>
      let i := sparseBin + cnt in
      let* l := evaluateAt s (i + 1) (length bins) numCovered (aget thresholds i) true l in
      let* ids := aget bins i in
      let '(s, n) := addAllToSubset ids s in
      binnedDown thresholds bins sparseBin cnt' (numCovered + n) s l
  end.

(** lines 129-163: line 151 uses the scores of the covered examples for the negated condition. *)
Definition evaluateSparseBin (s : subset) (start end_ numCovered : nat) (threshold : option Z) (l : list evaluated)
  : option (list evaluated) :=
  if (minCoverage <=? numCovered) || (minCoverage <=? numWeighted - numCovered) then
    let* t := threshold in
    let l := consider (mkEval (ssCurrent s) start end_ false numCovered (Gr t)) l in
    Some (consider (mkEval (ssCurrent s) start end_ true (numWeighted - numCovered) (Leq t)) l)
  else Some l.

(** lines 11-206. *)
Definition searchBinned (thresholds : list Z) (bins : list (list nat)) (sparseBin : nat) : option (list evaluated) :=
  let numBins := length bins in
  let* (s, numCovered) :=
    (if 0 <? sparseBin then let* ids := aget bins 0 in Some (addAllToSubset ids emptySubset)
     else Some (emptySubset, 0)) in
  let* (numLess, s, l) :=
    (if 0 <? numCovered then
       let* (numCovered, s, l) := binnedUp thresholds bins (sparseBin - 1) 1 numCovered s [] in
       Some (numCovered, resetSubset s, l)
     else Some (numCovered, s, [])) in
  let* (s, numCovered) :=
    (if sparseBin <? numBins - 1 then let* ids := aget bins (numBins - 1) in Some (addAllToSubset ids s)
     else Some (s, 0)) in
  let* (numCovered, s, l) :=
    (if 0 <? numCovered then binnedDown thresholds bins sparseBin (numBins - 2 - sparseBin) numCovered s l
     else Some (numCovered, s, l)) in
  let* l := evaluateSparseBin s (sparseBin + 1) numBins numCovered (aget thresholds sparseBin) l in
  if (0 <? numLess) && (numLess <? numWeighted) then
    if (minCoverage <=? numLess) || (minCoverage <=? numWeighted - numLess) then
      let* t := aget thresholds (sparseBin - 1) in
      evaluateAccumulated s 0 sparseBin numLess (Leq t) (Gr t) l
    else Some l
  else Some l.

End Search.
