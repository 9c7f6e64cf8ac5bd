(** Model of the methods that assign the values of numerical features to bins. *)
From Coq Require Import ZArith Arith List Bool.
From Verif Require Import Lib.Arr Model.Search Model.Filter.
Import ListNotations.
Open Scope nat_scope.

(** Numerical feature vectors are lists of pairs of example index and value, sorted by value
    (feature_type_numerical_common.hpp, lines 15-39); values are represented by integers. *)

(** The arrays of an AllocatedBinnedFeatureVector (feature_vector_binned_allocated.hpp, lines 21-26; allocated with
    [numBins - 1], [numIndices] and [numBins + 1] elements). *)
Record arrays : Type := mkArrays { aThresholds : list Z; aIndices : list nat; aIndptr : list nat }.

(** feature_vector_binned_allocated.hpp, lines 21-26: [junk] is the content of the memory that has been allocated. *)
Definition allocateBins (junk : arrays) (numBins numIndices : nat) : option arrays :=
  let* p := aset (firstn (numBins + 1) (aIndptr junk)) 0 0 in
  let* p := aset p numBins numIndices in
  Some (mkArrays (firstn (numBins - 1) (aThresholds junk)) (firstn numIndices (aIndices junk)) p).

(** The indices that belong to each bin (common/data/view_vector_compressed.hpp, lines 57-69: indices_cbegin and
    indices_cend). *)
Definition binsFrom (indices indptr : list nat) (numBins : nat) : list (list nat) :=
  map (fun b => slice (nth b indptr 0) (nth (S b) indptr 0) indices) (seq 0 numBins).

(** [resize], feature_vector_binned_allocated.hpp, lines 56-66. *)
Definition resizeBins (a : arrays) (sparseBin numBins numIndices : nat) (missing : list nat) : option fvec :=
  let* p := aset (firstn (numBins + 1) (aIndptr a)) numBins numIndices in
  Some (BinnedVec (firstn (numBins - 1) (aThresholds a)) (binsFrom (firstn numIndices (aIndices a)) p numBins)
          (if numBins <=? sparseBin then numBins - 1 else sparseBin) missing).

(** ** Equal-frequency binning (feature_binning_equal_frequency.cpp) *)

Section EqualFrequency.
(** [isEqual] (common/data/types.hpp, lines 46-50) and [util::arithmeticMean] (common/util/math.hpp, lines 35-37). *)
Variable isEqual : Z -> Z -> bool.
Variable mean : Z -> Z -> Z.
(** [numElementsPerBin]. *)
Variable perBin : nat.

(** lines 22-25: [previousValue], [numElementsInCurrentBin], [binIndex], [numIndices]. *)
Record efState : Type := mkEf { fArrays : arrays; fPrevious : Z; fInBin : nat; fBin : nat; fNum : nat }.

(** lines 41-44, 61-64 and 96-99: the current bin is complete, [inBin] elements are already known to belong to the next
    one. *)
Definition closeBin (next : Z) (inBin : nat) (st : efState) : option efState :=
  let a := fArrays st in
  let* t := aset (aThresholds a) (fBin st) (mean (fPrevious st) next) in
  let* p := aset (aIndptr a) (fBin st + 1) (fNum st) in
  Some (mkEf (mkArrays t (aIndices a) p) (fPrevious st) inBin (fBin st + 1) (fNum st)).

(** See above (feature_binning_equal_frequency.cpp, lines 41-44, 61-64 and 96-99). *)
Definition setPrevious (z : Z) (st : efState) : efState :=
  mkEf (fArrays st) z (fInBin st) (fBin st) (fNum st).

(** lines 37-52 and 92-107. *)
Definition addValue (e : nat * Z) (st : efState) : option efState :=
  let* st :=
    (if isEqual (snd e) (fPrevious st) then Some st
     else
       let* st := (if perBin <=? fInBin st then closeBin (snd e) 0 st else Some st) in
       Some (setPrevious (snd e) st)) in
  let a := fArrays st in
  let* ids := aset (aIndices a) (fNum st) (fst e) in
  Some (mkEf (mkArrays (aThresholds a) ids (aIndptr a)) (fPrevious st) (fInBin st + 1) (fBin st) (fNum st + 1)).

(** lines 29-53: the values that are less than the sparse value; returns the remaining elements. *)
Fixpoint addSmaller (sparseValue : Z) (v : list (nat * Z)) (st : efState) : option (list (nat * Z) * efState) :=
  match v with
  | [] => Some ([], st)
  | e :: v' =>
      if (snd e <? sparseValue)%Z then
        let* st := addValue e st in
        addSmaller sparseValue v' st
      else Some (v, st)
  end.

(** lines 74-81: values that are equal to the sparse value; returns the remaining elements. *)
Fixpoint skipEqual (v : list (nat * Z)) (st : efState) : list (nat * Z) * efState :=
  match v with
  | [] => ([], st)
  | e :: v' =>
      if isEqual (snd e) (fPrevious st) then
        skipEqual v' (mkEf (fArrays st) (fPrevious st) (fInBin st + 1) (fBin st) (fNum st))
      else (v, st)
  end.

(** lines 55-82. *)
Definition addSparse (sparseValue : Z) (numSparse : nat) (v : list (nat * Z)) (st : efState)
  : option (list (nat * Z) * efState) :=
  let* st :=
    (if perBin <=? fInBin st then closeBin sparseValue numSparse st
     else Some (mkEf (fArrays st) (fPrevious st) (fInBin st + numSparse) (fBin st) (fNum st - fInBin st))) in
  Some (skipEqual v (setPrevious sparseValue st)).

(** lines 13-118, given the number of bins; [numExamples] is the number of examples, including those with missing
    values. *)
Definition equalFrequency (junk : arrays) (numBins numExamples : nat) (v : list (nat * Z)) (sparseValue : Z)
  (sparse : bool) (missing : list nat) : option fvec :=
  if 1 <? numBins then
    let* a := allocateBins junk numBins (length v) in
    let* (rest, st) := addSmaller sparseValue v (mkEf a sparseValue 0 0 0) in
    let* (rest, st) :=
      (if sparse then addSparse sparseValue (numExamples - length v) rest st else Some (rest, st)) in
    let sparseBin := fBin st in
    let* st := forL rest addValue st in
    if 0 <? fBin st then resizeBins (fArrays st) sparseBin (fBin st + 1) (fNum st) missing else Some EqualVec
  else Some EqualVec.

End EqualFrequency.

(** line 19: [numElementsPerBin]; the quotient is taken to be exact. *)
Definition perBin (numElements numBins : nat) : nat := (numElements + numBins - 1) / numBins.

(** ** Equal-width binning (feature_binning_equal_width.cpp) *)

(** lines 10-36; reading the first of no elements is an error. *)
Definition minMax (v : list (nat * Z)) (sparseValue : Z) (sparse : bool) : option (Z * Z) :=
  let* (start, rest) :=
    (if sparse then Some (sparseValue, v) else match v with [] => None | e :: v' => Some (snd e, v') end) in
  Some (fold_left (fun '(mn, mx) e =>
          if (snd e <? mn)%Z then (snd e, mx) else if (mx <? snd e)%Z then (mn, snd e) else (mn, mx))
        rest (start, start)).

(** lines 38-41: [width] is [(mx - mn) / numWidths], without rounding. It is undefined behaviour to convert NaN, negative
    numbers or such of at least 2^32 into an unsigned integer (a division by zero yields NaN or infinity). *)
Definition getBinIndex (value mn mx : Z) (numWidths : nat) : option nat :=
  if (mx =? mn)%Z then None
  else
    let q := ((value - mn) * Z.of_nat numWidths / (mx - mn))%Z in
    if (q <? 0)%Z || (2 ^ 32 <=? q)%Z then None
    else Some (if numWidths <=? Z.to_nat q then numWidths - 1 else Z.to_nat q).

(** lines 60-70: [numExamplesPerBin]. *)
Definition countBins (mn mx : Z) (numWidths sparseBin : nat) (v : list (nat * Z)) : option (list nat) :=
  forL v (fun e counts =>
    let* b := getBinIndex (snd e) mn mx numWidths in
    if b =? sparseBin then Some counts
    else
      let* c := aget counts b in
      aset counts b (c + 1)) (repeat 0 numWidths).

(** lines 73-75: [mapping], [numIndices], [numBins] and the sparse bin of the vector. *)
Record ewState : Type :=
  mkEw { wArrays : arrays; wMapping : list nat; wNum : nat; wBins : nat; wSparse : nat }.

(** lines 77-95. Thresholds are multiples of [1 / numWidths] and are represented by numerators. *)
Definition layBin (mn mx : Z) (numWidths sparseBin : nat) (counts : list nat) (i : nat) (st : ewState)
  : option ewState :=
  let* c := aget counts i in
  if (i =? sparseBin) || (0 <? c) then
    let a := wArrays st in
    let* t := aset (aThresholds a) (wBins st) (Z.of_nat numWidths * mn + Z.of_nat (wBins st + 1) * (mx - mn))%Z in
    let* p := aset (aIndptr a) (wBins st) (wNum st) in
    let* m := aset (wMapping st) i (wBins st) in
    Some (mkEw (mkArrays t (aIndices a) p) m (if i =? sparseBin then wNum st else wNum st + c) (wBins st + 1)
            (if i =? sparseBin then wBins st else wSparse st))
  else
    let* m := aset (wMapping st) i sparseBin in
    Some (mkEw (wArrays st) m (wNum st) (wBins st) (wSparse st)).

(** lines 98-114. *)
Definition storeIndex (mn mx : Z) (numWidths sparseBin : nat) (indptr mapping : list nat) (newSparse : nat)
  (e : nat * Z) (st : list nat * list nat) : option (list nat * list nat) :=
  let (indices, counts) := st in
  let* b := getBinIndex (snd e) mn mx numWidths in
  if b =? sparseBin then Some st
  else
    let* bin := aget mapping b in
    if bin =? newSparse then Some st
    else
      let* c := aget counts b in
      if c =? 0 then None
      else
        let* counts := aset counts b (c - 1) in
        let* start := aget indptr bin in
        let* indices := aset indices (start + (c - 1)) (fst e) in
        Some (indices, counts).

(** lines 48-124, given the number of bins ([numWidths]); [junk] also provides the initial content of [mapping]. *)
Definition equalWidth (junk : arrays) (junkMapping : list nat) (numWidths : nat) (v : list (nat * Z)) (sparseValue : Z)
  (sparse : bool) (missing : list nat) : option fvec :=
  if 0 <? numWidths then
    let* (mn, mx) := minMax v sparseValue sparse in
    let* sparseBin := getBinIndex sparseValue mn mx numWidths in
    let* a := allocateBins junk numWidths (length v) in
    let* counts := countBins mn mx numWidths sparseBin v in
    let* st := forN numWidths 0 (layBin mn mx numWidths sparseBin counts)
                 (mkEw a (firstn numWidths junkMapping) 0 0 sparseBin) in
    let* (indices, _) := forL v (storeIndex mn mx numWidths sparseBin (aIndptr (wArrays st)) (wMapping st) (wSparse st))
                           (aIndices (wArrays st), counts) in
    if 1 <? wBins st then
      resizeBins (mkArrays (aThresholds (wArrays st)) indices (aIndptr (wArrays st))) (wSparse st) (wBins st) (wNum st)
        missing
    else Some EqualVec
  else Some EqualVec.
