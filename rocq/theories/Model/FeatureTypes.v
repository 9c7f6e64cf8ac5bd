(** Model of the creation of feature vectors from the columns of dense and sparse feature matrices. *)
From Coq Require Import ZArith Arith List Bool.
From Verif Require Import Lib.Arr Model.Filter.
Import ListNotations.
Open Scope nat_scope.

(** The values of features are single-precision floating point numbers, given as multiples of 2^-149. Infinite values are
    represented by integers that exceed all finite ones in magnitude. [None]: NaN. *)
Definition value32 : Type := option Z.

(** An element of a column: [indexIterator[i]] and [valueIterator[i]]. *)
Definition element : Type := nat * value32.

Definition unit32 : Z := (2 ^ 149)%Z.
Definition limit32 : Z := (2 ^ 31)%Z.

(** static_cast<int32>(value): truncation, undefined if the result cannot be represented. *)
Definition toInt32 (x : Z) : option Z :=
  let t := Z.quot x unit32 in
  if ((- limit32 <=? t) && (t <? limit32))%Z then Some t else None.

(** common/data/vector_dok_binary.hpp, lines 87-93 ([set] with [true]): insertion into a hash set. *)
Definition setMissing (missing : list nat) (index : nat) : list nat :=
  if existsb (Nat.eqb index) missing then missing else index :: missing.

(** The elements of a column of a [FortranContiguousView]. [IndexIterator] yields 0, 1, ... *)
Definition denseElements (values : list value32) : list element := combine (seq 0 (length values)) values.

(** ** Numerical features *)

Section Numerical.
(** [isEqual] (common/data/types.hpp, lines 46-50) and [std::sort] by values. *)
Variable isEqual : Z -> Z -> bool.
Variable sort : list (nat * Z) -> list (nat * Z).

(** input/feature_type_numerical_common.hpp, lines 15-41: the elements of the vector after sorting, and missing values. *)
Definition createNumerical (elements : list element) : list (nat * Z) * list nat :=
  let '(v, missing) := fold_left (fun '(v, missing) (e : element) =>
    match snd e with
    | None => (v, setMissing missing (fst e))
    | Some x => (v ++ [(fst e, x)], missing)
    end) elements ([], []) in
  (sort v, missing).

(** [numericalFeatureVector[0].value] and [numericalFeatureVector[numElements - 1].value] are equal. *)
Definition firstAndLastEqual (v : list (nat * Z)) : option bool :=
  let* (_, a) := aget v 0 in
  let* (_, b) := aget v (length v - 1) in
  Some (isEqual a b).

(** input/feature_type_numerical.cpp, lines 9-23. The sparse value of the vector is not used, unless it is sparse. *)
Definition createNumericalDense (values : list value32) : option fvec :=
  let (v, missing) := createNumerical (denseElements values) in
  if 0 <? length v then
    let* equal := firstAndLastEqual v in
    if negb equal then Some (NumericalVec v 0 false missing) else Some EqualVec
  else Some EqualVec.

(** lines 25-44. [elements]: the elements of a column of the [CscView], [sparseValue]: its field. *)
Definition createNumericalSparse (numRows : nat) (sparseValue : Z) (elements : list element) : option fvec :=
  let (v, missing) := createNumerical elements in
  if 0 <? length v then
    if length v <? numRows then Some (NumericalVec v sparseValue true missing)
    else
      let* equal := firstAndLastEqual v in
      if negb equal then Some (NumericalVec v sparseValue false missing) else Some EqualVec
  else Some EqualVec.

End Numerical.

(** ** Nominal and ordinal features *)

(** std::unordered_map<int32, Tuple<uint32>>: the entries in the order in which they are iterated. *)
Definition mapping : Type := list (Z * (nat * nat)).

Fixpoint lookup (m : mapping) (key : Z) : option (nat * nat) :=
  match m with
  | [] => None
  | (k, t) :: m' => if (k =? key)%Z then Some t else lookup m' key
  end.

(** Assigns a tuple to an existing entry. *)
Definition modify (m : mapping) (key : Z) (t : nat * nat) : mapping :=
  map (fun entry => if (fst entry =? key)%Z then (key, t) else entry) m.

(** input/feature_type_nominal_common.hpp, lines 13-39: the entries and the number of values that are not missing. *)
Definition createMapping (elements : list element) : option (mapping * nat) :=
  let* (m, numExamples, numValues) := forL elements (fun e '(m, numExamples, numValues) =>
    match snd e with
    | None => Some (m, numExamples, numValues)
    | Some x =>
        let* nominalValue := toInt32 x in
        match lookup m nominalValue with
        | None => Some (m ++ [(nominalValue, (numValues, 1))], numExamples + 1, numValues + 1)
        | Some (first, second) => Some (modify m nominalValue (first, second + 1), numExamples + 1, numValues)
        end
    end) ([], 0, 0) in
  Some (m, numExamples).

(** lines 41-58. *)
Definition getMajorityValue (m : mapping) : option Z :=
  let* (value, (_, frequency)) := aget m 0 in
  let (majorityValue, _) := fold_left (fun '(majorityValue, majorityValueFrequency) (entry : Z * (nat * nat)) =>
    let frequency := snd (snd entry) in
    if majorityValueFrequency <? frequency then (fst entry, frequency) else (majorityValue, majorityValueFrequency))
    m (value, frequency) in
  Some majorityValue.

(** lines 60-78. *)
Definition getMinorityAndMajorityValue (m : mapping) : option (Z * Z) :=
  let* (firstValue, (_, firstFrequency)) := aget m 0 in
  let* (secondValue, (_, secondFrequency)) := aget m 1 in
  if secondFrequency <? firstFrequency then Some (secondValue, firstValue) else Some (firstValue, secondValue).

(** An array whose elements may not have been initialised yet. *)
Definition readAt {A} (l : list (option A)) (i : nat) : option A :=
  match aget l i with Some x => x | None => None end.

(** input/feature_vector_nominal.hpp, lines 12-37 and data/view_vector_compressed.hpp, lines 15-46: the arrays of a nominal vector. *)
Record arrays : Type :=
  mkArrays { aValues : list (option Z); aIndices : list (option nat); aIndptr : list (option nat); aMajority : Z }.

(** input/feature_vector_nominal_allocated.hpp, lines 21-26. *)
Definition allocate (numValues numIndices : nat) (majorityValue : Z) : arrays :=
  mkArrays (repeat None numValues) (repeat None numIndices)
    (upd (upd (repeat None (numValues + 1)) 0 (Some 0)) numValues (Some numIndices)) majorityValue.

(** The values of all elements of an array. *)
Fixpoint readAll {A} (l : list (option A)) : option (list A) :=
  match l with
  | [] => Some []
  | x :: l' => let* a := x in let* r := readAll l' in Some (a :: r)
  end.

(** The elements at the positions [indptr[i]], ..., [indptr[i + 1] - 1] of [indices]
    (data/view_vector_compressed.hpp, lines 57-70). *)
Definition readBin (a : arrays) (i : nat) : option (list nat) :=
  let* start := readAt (aIndptr a) i in
  let* end_ := readAt (aIndptr a) (i + 1) in
  if end_ <? start then None
  else forN (end_ - start) start (fun j ids => let* index := readAt (aIndices a) j in Some (ids ++ [index])) [].

(** What is represented by the arrays; [None] if it depends on uninitialised elements. *)
Definition readVector (k : nominalKind) (a : arrays) (missing : list nat) : option fvec :=
  let* values := readAll (aValues a) in
  let* bins := forN (length values) 0 (fun i bins => let* ids := readBin a i in Some (bins ++ [ids])) [] in
  Some (NominalVec k values bins (aMajority a) missing).

(** input/feature_type_nominal_common.hpp, lines 80-111. *)
Definition createBinaryInternally (elements : list element) (m : mapping) (minorityValue majorityValue : Z)
  : option (arrays * list nat) :=
  let* (_, numMinorityExamples) := lookup m minorityValue in
  let a := allocate 1 numMinorityExamples majorityValue in
  let* values := aset (aValues a) 0 (Some minorityValue) in
  let* (indices, missing, _) := forL elements (fun e '(indices, missing, n) =>
    match snd e with
    | None => Some (indices, setMissing missing (fst e), n)
    | Some x =>
        let* nominalValue := toInt32 x in
        if (nominalValue =? minorityValue)%Z then
          let* indices := aset indices n (Some (fst e)) in Some (indices, missing, n + 1)
        else Some (indices, missing, n)
    end) (aIndices a, [], 0) in
  Some (mkArrays values indices (aIndptr a) majorityValue, missing).

(** lines 113-131. *)
Definition createBinary (elements : list element) (m : mapping) (sparse : bool) (sparseValue : Z)
  : option (arrays * list nat) :=
  let* (minorityValue, majorityValue) :=
    if sparse then let* (value, _) := aget m 0 in Some (value, sparseValue) else getMinorityAndMajorityValue m in
  createBinaryInternally elements m minorityValue majorityValue.

(** input/feature_type_nominal.cpp, lines 32-50 and input/feature_type_ordinal.cpp, lines 45-63: bins are filled from back
    to front. *)
Definition storeIndices (elements : list element) (m : mapping) (a : arrays) : option (arrays * list nat) :=
  let* (_, indices, missing) := forL elements (fun e '(m, indices, missing) =>
    match snd e with
    | None => Some (m, indices, setMissing missing (fst e))
    | Some x =>
        let* nominalValue := toInt32 x in
        if (nominalValue =? aMajority a)%Z then Some (m, indices, missing)
        else
          let* (position, remaining) := lookup m nominalValue in
          match remaining with
          | 0 => None
          | S numRemaining =>
              let* start := readAt (aIndptr a) position in
              let* indices := aset indices (start + numRemaining) (Some (fst e)) in
              Some (modify m nominalValue (position, numRemaining), indices, missing)
          end
    end) (m, aIndices a, []) in
  Some (mkArrays (aValues a) indices (aIndptr a) (aMajority a), missing).

(** input/feature_type_nominal.cpp, lines 7-54. *)
Definition createNominal (elements : list element) (m : mapping) (numValues numIndices : nat) (majorityValue : Z)
  : option (arrays * list nat) :=
  let a := allocate numValues numIndices majorityValue in
  let* (values, indptr, m', _, _) := forL m (fun entry '(values, indptr, m', offset, n) =>
    let '(value, (_, frequency)) := entry in
    if (value =? majorityValue)%Z then Some (values, indptr, m', offset, n)
    else
      let* values := aset values n (Some value) in
      let* indptr := aset indptr n (Some offset) in
      Some (values, indptr, modify m' value (n, frequency), offset + frequency, n + 1))
    (aValues a, aIndptr a, m, 0, 0) in
  storeIndices elements m' (mkArrays values (aIndices a) indptr majorityValue).

(** input/feature_type_ordinal.cpp, lines 11-67. [sortValues]: [std::sort] of integers. *)
Definition createOrdinal (sortValues : list Z -> list Z) (elements : list element) (m : mapping)
  (numValues numIndices : nat) (majorityValue : Z) : option (arrays * list nat) :=
  let* (sortedValues, _) := forL m (fun entry '(sortedValues, n) =>
    let (value, _) := entry in
    if (value =? majorityValue)%Z then Some (sortedValues, n)
    else let* sortedValues := aset sortedValues n (Some value) in Some (sortedValues, n + 1))
    (repeat None numValues, 0) in
  let* unsorted := readAll sortedValues in
  let sorted := sortValues unsorted in
  let a := allocate numValues numIndices majorityValue in
  let* (values, indptr, m', _) := forN numValues 0 (fun i '(values, indptr, m', offset) =>
    let* value := aget sorted i in
    let* values := aset values i (Some value) in
    let* indptr := aset indptr i (Some offset) in
    let* (_, frequency) := lookup m' value in
    Some (values, indptr, modify m' value (i, frequency), offset + frequency))
    (aValues a, aIndptr a, m, 0) in
  storeIndices elements m' (mkArrays values (aIndices a) indptr majorityValue).

Section Nominal.
(** The order in which the entries of a hash map are iterated, and [std::sort] of integers. *)
Variable iterated : mapping -> mapping.
Variable sortValues : list Z -> list Z.

(** input/feature_type_nominal.cpp, lines 56-89 and input/feature_type_ordinal.cpp, lines 69-102. [ordinal]: whether the
    feature is ordinal. *)
Definition createCategorical (ordinal : bool) (elements : list element) (m : mapping) (numValues numExamples : nat)
  (sparse : bool) (sparseValue : Z) : option fvec :=
  if 2 <? numValues then
    let* (majorityValue, numMajorityExamples) :=
      if sparse then Some (sparseValue, 0)
      else
        let* majorityValue := getMajorityValue m in
        let* (_, frequency) := lookup m majorityValue in
        Some (majorityValue, frequency) in
    if ordinal then
      let* (a, missing) := createOrdinal sortValues elements m (numValues - 1) (numExamples - numMajorityExamples)
                             majorityValue in
      readVector Ordinal a missing
    else
      let* (a, missing) := createNominal elements m (numValues - 1) (numExamples - numMajorityExamples) majorityValue in
      readVector Nominal a missing
  else if 1 <? numValues then
    let* (a, missing) := createBinary elements m sparse sparseValue in
    readVector Binary a missing
  else Some EqualVec.

(** input/feature_type_nominal.cpp, lines 91-101 and input/feature_type_ordinal.cpp, lines 104-114. *)
Definition createCategoricalDense (ordinal : bool) (values : list value32) : option fvec :=
  let elements := denseElements values in
  let* (m, numExamples) := createMapping elements in
  createCategorical ordinal elements (iterated m) (length m) numExamples false 0.

(** input/feature_type_nominal.cpp, lines 103-120 and input/feature_type_ordinal.cpp, lines 116-133. *)
Definition createCategoricalSparse (ordinal : bool) (numRows : nat) (sparseValue : Z) (elements : list element)
  : option fvec :=
  let* (m, numExamples) := createMapping elements in
  let sparse := length elements <? numRows in
  let numValues := if sparse then length m + 1 else length m in
  let* sparseValue := toInt32 sparseValue in
  createCategorical ordinal elements (iterated m) numValues numExamples sparse sparseValue.

End Nominal.
