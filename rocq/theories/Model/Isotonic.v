(** Model of isotonic calibration. Floating point numbers are replaced by rational numbers with exact arithmetic.
    cpp/subprojects/common/src/mlrl/common/prediction/probability_calibration_isotonic.cpp *)
From Coq Require Import ZArith QArith Qabs Qminmax Arith List Bool.
From Verif Require Import Lib.Arr Model.Stopping.
Import ListNotations.
Open Scope nat_scope.

(** A bin: threshold and probability, cpp/subprojects/common/include/mlrl/common/data/tuple.hpp, lines 14-45. *)
Notation bin := (Q * Q)%type.

(** [a < b] for numbers. *)
Definition Qltb (a b : Q) : bool := if Qlt_le_dec a b then true else false.

(** cpp/subprojects/common/include/mlrl/common/data/types.hpp, lines 50-53; the machine epsilon is 2^-52. *)
Definition isEqualQ (a b : Q) : bool :=
  if Qlt_le_dec ((1 # 4503599627370496) * Qmax 1 (Qmax (Qabs a) (Qabs b))) (Qabs (a - b)) then false else true.

(** Lines 12-34; [bins]: the result of sorting by thresholds in lines 8-10. Line 15 reads [bins[0]]. *)
Definition eliminateDuplicates (bins : list bin) : option (list bin) :=
  let numBins := length bins in
  let* previousBin := aget bins 0 in
  let* (bins, n, previousIndex, previousBin) :=
    forN (numBins - 1) 1 (fun j '(bins, n, previousIndex, previousBin) =>
      let* currentBin := aget bins j in
      if isEqualQ (fst currentBin) (fst previousBin) then
        let numAggregated := j - previousIndex + 1 in
        Some (bins, n, previousIndex,
              (fst previousBin, iterativeArithmeticMean numAggregated (snd currentBin) (snd previousBin)))
      else
        let* bins := aset bins n previousBin in
        let* currentBin := aget bins j in
        Some (bins, n + 1, j, currentBin)) (bins, 0, 0, previousBin) in
  let* last := aget bins (numBins - 1) in
  let* bins := aset bins n last in
  Some (firstn (n + 1) bins).

(** Lines 65-78. [c]: the index [currentBin] refers to. The assignment in line 76 overwrites the bin at this index. *)
Fixpoint poolInner (fuel : nat) (bins : list bin) (pools : list nat) (i c j numBinsInSubsequence : nat)
  : option (list bin * nat) :=
  match fuel with
  | 0 => None
  | S fuel =>
      let* pool := aget pools j in
      let j := pool + 1 in
      if j <? length bins then
        let* nextBin := aget bins j in
        let* currentBin := aget bins c in
        if Qltb (snd currentBin) (snd nextBin) then Some (bins, j) else
        let numBinsInSubsequence := numBinsInSubsequence + 1 in
        let* previousBin := aget bins i in
        let* bins := aset bins i
          (fst previousBin, iterativeArithmeticMean numBinsInSubsequence (snd nextBin) (snd previousBin)) in
        let* nextBin := aget bins j in
        let* bins := aset bins c nextBin in
        poolInner fuel bins pools i c j numBinsInSubsequence
      else Some (bins, j)
  end.

(** Lines 48-90. *)
Fixpoint poolLoop (fuel : nat) (bins : list bin) (pools : list nat) (i j : nat) : option (list bin * list nat) :=
  let numBins := length bins in
  match fuel with
  | 0 => None
  | S fuel =>
      if (i <? numBins) && (j <? numBins) then
        let* pool := aget pools i in
        let j := pool + 1 in
        if j <? numBins then
          let* previousBin := aget bins i in
          let* currentBin := aget bins j in
          if Qltb (snd previousBin) (snd currentBin) then poolLoop fuel bins pools j j
          else
            let* bins := aset bins i
              (fst previousBin, iterativeArithmeticMean 2 (snd currentBin) (snd previousBin)) in
            let* (bins, j) := poolInner numBins bins pools i j j 2 in
            let* pools := aset pools i (j - 1) in
            let* pools := aset pools (j - 1) i in
            if 0 <? i then
              let* j := aget pools (i - 1) in
              poolLoop fuel bins pools j j
            else poolLoop fuel bins pools i j
        else Some (bins, pools)
      else Some (bins, pools)
  end.

(** Lines 95-98; the loop runs at most [numBins] times plus one for the final test. *)
Fixpoint compactLoop (fuel : nat) (bins : list bin) (pools : list nat) (i j : nat) : option (list bin * nat) :=
  match fuel with
  | 0 => None
  | S fuel =>
      if i <? length bins then
        let* b := aget bins i in
        let* bins := aset bins j b in
        let* pool := aget pools i in
        compactLoop fuel bins pools (pool + 1) (j + 1)
      else Some (bins, j)
  end.

(** Lines 37-102. *)
Definition aggregateNonIncreasingBins (bins : list bin) : option (list bin) :=
  let numBins := length bins in
  let* (bins, pools) := poolLoop (2 * numBins + 1) bins (seq 0 numBins) 0 0 in
  let* (bins, j) := compactLoop (numBins + 1) bins pools 0 0 in
  Some (firstn j bins).

(** Lines 142-144 for a single list, [sorted]: the list after sorting. *)
Definition fitSorted (sorted : list bin) : option (list bin) :=
  let* bins := eliminateDuplicates sorted in
  aggregateNonIncreasingBins bins.

(** [std::lower_bound]: the number of leading bins with smaller thresholds. *)
Fixpoint lowerBound (bins : list bin) (probability : Q) : nat :=
  match bins with
  | [] => 0
  | b :: bins => if Qltb (fst b) probability then S (lowerBound bins probability) else 0
  end.

(** Lines 104-132. [None]: undefined behaviour; [Some None]: the result is not a number as the divisor is zero. *)
Definition calibrateProbability (bins : list bin) (probability : Q) : option (option Q) :=
  let offset := lowerBound bins probability in
  let* (lower, upper) :=
    (if offset =? length bins then
       if offset =? 0 then None else
       let* lower := aget bins (offset - 1) in Some (lower, (1%Q, 1%Q))
     else
       let* lower := (if 0 <? offset then aget bins (offset - 1) else Some (0%Q, 0%Q)) in
       let* upper := aget bins offset in
       Some (lower, upper)) in
  let d := (fst upper - fst lower)%Q in
  if Qeq_dec d 0 then Some None else
  let t := ((probability - fst lower) / d)%Q in
  Some (Some (snd lower + t * (snd upper - snd lower)))%Q.

(** cpp/subprojects/boosting/src/mlrl/boosting/prediction/probability_calibration_isotonic.cpp, lines 335-350.
    [labelIndices]: the relevant labels of an example, [labelVector]: those of a label vector. *)
Definition areLabelVectorsEqual (labelIndices labelVector : list nat) : option bool :=
  let* (r, _) := forN (length labelVector) 0 (fun i '(r, it) =>
    if negb r then Some (r, it) else
    match it with
    | [] => Some (false, it)
    | h :: rest => let* x := aget labelVector i in
                   if negb (h =? x) then Some (false, it) else Some (true, rest)
    end) (true, labelIndices) in
  Some r.
