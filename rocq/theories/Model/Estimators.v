(** * The matrices and feature types that are handed from Python to C++

    Model of python/subprojects/common/mlrl/common/arrays.py and of the methods of python/subprojects/common/mlrl/common/rule_learners.py
    that convert the arguments of [fit] and [predict] into the representations that are used by the C++ code.

    Simplifications: Matrices have two dimensions (the function [enforce_2d] is omitted) and contain at least one row and one column.
    The values of features are represented as in Model/FeatureTypes.v, i.e., as multiples of the smallest representable number or [None],
    if a value is missing (NaN). Infinite values are rejected by scikit-learn ("force_all_finite='allow-nan'"). The values of sparse
    matrices are given as a list of the elements that are explicitly stored, regardless of the format that is used by SciPy. Converting
    a sparse matrix into the CSC or CSR format by means of scikit-learn retains the elements that are explicitly stored. *)

From Coq Require Import List Bool Arith ZArith NArith.
From Verif Require Import Lib.Arr Model.Containers.
Import ListNotations.

(** The value of a feature. *)
Notation fvalue := (option Z).

(** The comparison of a value with zero; NaN is not equal to zero. *)
Definition isZero (v : fvalue) : bool := match v with Some z => Z.eqb z 0 | None => false end.

(** The addition of two values. *)
Definition addValues (v w : fvalue) : fvalue :=
  match v, w with Some a, Some b => Some (a + b)%Z | _, _ => None end.

(** The formats of sparse matrices that are provided by SciPy. *)
Inductive sformat := LIL | COO | DOK | CSC | CSR | BSR | DIA.

(** A sparse matrix that is given by the user. *)
Record smatrix (V : Type) := SMatrix { sfmt : sformat; srows : nat; scols : nat; sstored : list ((nat * nat) * V) }.
Arguments SMatrix {V}. Arguments sfmt {V}. Arguments srows {V}. Arguments scols {V}. Arguments sstored {V}.

(** A matrix that is given by the user. *)
Inductive input (V : Type) := DenseInput (m : list (list V)) | SparseInput (s : smatrix V).
Arguments DenseInput {V}. Arguments SparseInput {V}.

(** The result of calling a function; [ValueError] and [IndexError] are exceptions. *)
Inductive created (M : Type) := Created (m : M) | ValueError | IndexError.
Arguments Created {M}. Arguments ValueError {M}. Arguments IndexError {M}.

(** rule_learners.py, lines 39-46. *)
Inductive policy := Auto | ForceSparse | ForceDense.

(** The formats that are supported (rule_learners.py, line 94, and arrays.py, lines 90-98). *)
Definition supportedFormat (f : sformat) : bool :=
  match f with LIL | COO | DOK | CSR | CSC => true | BSR | DIA => false end.

(** arrays.py, lines 119-130, where [colWise] indicates that the CSC format should be used and [itemsize] is the size of a value. *)
Definition memoryEfficient {V} (s : smatrix V) (colWise : bool) (itemsize : nat) (sparseValues : bool) : bool :=
  let numPointers := if colWise then scols s else srows s in
  let sizeInt := 4 in
  let sizeSparseData := if sparseValues then itemsize else 0 in
  let numDenseElements := length (sstored s) in
  let sizeSparse := numDenseElements * sizeSparseData + numDenseElements * sizeInt + numPointers * sizeInt in
  let sizeDense := srows s * scols s * itemsize in
  sizeSparse <? sizeDense.

(** rule_learners.py, lines 67-106. The outcome [None] corresponds to a [ValueError]. *)
Definition shouldEnforceSparse {V} (p : policy) (x : input V) (colWise : bool) (itemsize : nat) (sparseValues : bool) : option bool :=
  match x with
  | DenseInput _ => Some false
  | SparseInput s =>
      if supportedFormat (sfmt s) then
        match p with
        | Auto => Some (memoryEfficient s colWise itemsize sparseValues)
        | ForceSparse => Some true
        | ForceDense => Some false
        end
      else None
  end.

(** Read and write access to the elements of a NumPy array. *)
Definition mget {V} (m : list (list V)) (i j : nat) : option V := let* row := aget m i in aget row j.
Definition mset {V} (m : list (list V)) (i j : nat) (v : V) : option (list (list V)) :=
  let* row := aget m i in let* row' := aset row j v in aset m i row'.

(** The function [numpy.full]. *)
Definition full {V} (numRows numCols : nat) (v : V) : list (list V) := repeat (repeat v numCols) numRows.

(** Adding a sparse matrix to a NumPy array in-place. Elements that are not stored are equal to zero and do not have an effect. *)
Definition addSparse {V} (add : V -> V -> V) (stored : list ((nat * nat) * V)) (m : list (list V)) : option (list (list V)) :=
  forL stored (fun e m => let* v := mget m (fst (fst e)) (snd (fst e)) in
                          mset m (fst (fst e)) (snd (fst e)) (add v (snd e))) m.

(** The elements whose indices are returned by the function [nonzero] of a sparse matrix. *)
Definition nonzero (stored : list ((nat * nat) * fvalue)) : list ((nat * nat) * fvalue) :=
  filter (fun e => negb (isZero (snd e))) stored.

(** arrays.py, lines 133-151, if the data type [Float32] is used and if the given array is sparse. *)
Definition enforceDense (s : smatrix fvalue) (sparseValue : fvalue) : option (list (list fvalue)) :=
  if negb (isZero sparseValue) then
    let denseArray := full (srows s) (scols s) sparseValue in
    let* denseArray := forL (nonzero (sstored s)) (fun e (m : list (list fvalue)) => mset m (fst (fst e)) (snd (fst e)) (Some 0%Z)) denseArray in
    addSparse addValues (sstored s) denseArray
  else addSparse addValues (sstored s) (full (srows s) (scols s) (Some 0%Z)).

(** A feature matrix (or a matrix of regression scores) that is handed to the C++ code. Elements of sparse matrices that are not stored
    are equal to the given value. *)
Inductive fmatrix :=
| DenseMatrix (m : list (list fvalue))
| SparseMatrix (numRows numCols : nat) (stored : list ((nat * nat) * fvalue)) (sparseValue : fvalue).

(** The construction of a sparse matrix by accessing the addresses of the first elements of the given arrays, whose bounds are checked
    (cython/feature_matrix.pyx, lines 77-95 and 142-160, cython/regression_matrix.pyx, lines 44-61). *)
Definition createSparse (s : smatrix fvalue) (sparseValue : fvalue) : created fmatrix :=
  match sstored s with
  | [] => IndexError
  | _ => Created (SparseMatrix (srows s) (scols s) (sstored s) sparseValue)
  end.

(** rule_learners.py, lines 291-319, if [colWise] is true, and lines 321-352, otherwise. The outcome [None] is undefined behaviour. *)
Definition createFeatureMatrix (colWise : bool) (p : policy) (x : input fvalue) (sparseValue : fvalue) : option (created fmatrix) :=
  match shouldEnforceSparse p x colWise 4 true with
  | None => Some ValueError
  | Some enforceSparse =>
      match x with
      | DenseInput m => Some (Created (DenseMatrix m))
      | SparseInput s =>
          if enforceSparse then Some (createSparse s sparseValue)
          else let* m := enforceDense s sparseValue in Some (Created (DenseMatrix m))
      end
  end.

(** rule_learners.py, lines 369-374, and 605-619: the matrix that stores regression scores. *)
Definition createRegressionMatrix (p : policy) (y : input fvalue) : option (created fmatrix) :=
  match shouldEnforceSparse p y false 1 false with
  | None => Some ValueError
  | Some enforceSparse =>
      match y with
      | DenseInput m => Some (Created (DenseMatrix m))
      | SparseInput s =>
          if enforceSparse then Some (createSparse s (Some 0%Z))
          else let* m := enforceDense s (Some 0%Z) in Some (Created (DenseMatrix m))
      end
  end.

(** A label matrix that is handed to the C++ code. Only the indices of the elements of a sparse matrix are given. *)
Inductive lmatrix :=
| DenseLabels (m : list (list Z))
| SparseLabels (numRows numCols : nat) (indices : list (nat * nat)).

(** The conversion of an integer into the type [uint8]. *)
Definition toUint8 (v : Z) : Z := (v mod 256)%Z.

(** rule_learners.py, lines 369-374, and 435-447: the matrix that stores labels, which are given as integers (cython/label_matrix.pyx,
    lines 46-59). *)
Definition createLabelMatrix (p : policy) (y : input Z) : option (created lmatrix) :=
  match shouldEnforceSparse p y false 1 false with
  | None => Some ValueError
  | Some enforceSparse =>
      match y with
      | DenseInput m => Some (Created (DenseLabels (map (map toUint8) m)))
      | SparseInput s =>
          if enforceSparse then
            Some (match sstored s with
                  | [] => IndexError
                  | _ => Created (SparseLabels (srows s) (scols s) (map fst (sstored s)))
                  end)
          else
            let* m := addSparse Z.add (sstored s) (full (srows s) (scols s) 0%Z) in
            Some (Created (DenseLabels (map (map toUint8) m)))
      end
  end.

(** rule_learners.py, lines 363-367: whether predictions are stored using a sparse format. *)
Definition sparsePredictions {V} (p : policy) (y : input V) : bool :=
  match p with
  | ForceDense => false
  | ForceSparse => true
  | Auto => match y with DenseInput _ => false | SparseInput s => memoryEfficient s false 1 false end
  end.

(** ** Feature types *)

(** Information about the types of features: [EqualFeatureInfo] and [MixedFeatureInfo] (cython/feature_info.pyx, lines 18-69, and
    cpp/subprojects/common/src/mlrl/common/input/feature_info_mixed.cpp, lines 12-25). *)
Inductive featureInfo := AllNumerical | AllOrdinal | AllNominal | Mixed (ordinal nominal : list N).

(** The result of creating such information; [TypeError] and [OverflowError] are exceptions. *)
Inductive infoResult := Info (i : featureInfo) | TypeError | OverflowError.

(** The conversion of a Python integer into the type [uint32]; the outcome [None] corresponds to an [OverflowError]. *)
Definition toUint32 (n : Z) : option nat :=
  if ((0 <=? n) && (n <? 4294967296))%Z then Some (Z.to_nat n) else None.

(** feature_info_mixed.cpp, lines 49-57. *)
Definition setOrdinal (i : nat) (b : list N * list N) : option (list N * list N) :=
  let* ordinal := bv_set (fst b) i true in let* nominal := bv_set (snd b) i false in Some (ordinal, nominal).
Definition setNominal (i : nat) (b : list N * list N) : option (list N * list N) :=
  let* ordinal := bv_set (fst b) i false in let* nominal := bv_set (snd b) i true in Some (ordinal, nominal).

(** One of the loops in cython/feature_info.pyx, lines 63-67. The outcome [Some None] corresponds to an [OverflowError]. *)
Definition setAll (set : nat -> list N * list N -> option (list N * list N)) (indices : list Z) (b : list N * list N)
  : option (option (list N * list N)) :=
  forL indices (fun i ob =>
    match ob with
    | None => Some None
    | Some b => match toUint32 i with None => Some None | Some i => let* b := set i b in Some (Some b) end
    end) (Some b).

(** The constructor of the class [MixedFeatureInfo] (cython/feature_info.pyx, lines 53-69). *)
Definition newMixed (numFeatures : nat) (ordinal nominal : option (list Z)) : option infoResult :=
  match ordinal, nominal with
  | Some ordinal, Some nominal =>
      let empty := repeat 0%N (bv_size numFeatures) in
      let* b := setAll setNominal nominal (empty, empty) in
      match b with
      | None => Some OverflowError
      | Some b =>
          let* b := setAll setOrdinal ordinal b in
          match b with
          | None => Some OverflowError
          | Some b => Some (Info (Mixed (fst b) (snd b)))
          end
      end
  | _, _ => Some TypeError
  end.

(** rule_learners.py, lines 271-289, where [ordinal] and [nominal] are the attributes that are set by the user (mixins.py, lines 16-45). *)
Definition createFeatureInfo (numFeatures : nat) (ordinal nominal : option (list Z)) : option infoResult :=
  let numOrdinal := match ordinal with Some l => length l | None => 0 end in
  let numNominal := match nominal with Some l => length l | None => 0 end in
  if (numOrdinal =? 0) && (numNominal =? 0) then Some (Info AllNumerical)
  else if numOrdinal =? numFeatures then Some (Info AllOrdinal)
  else if numNominal =? numFeatures then Some (Info AllNominal)
  else newMixed numFeatures ordinal nominal.

(** The type of a feature. Numerical features are possibly discretized. *)
Inductive ftype := NumericalType | OrdinalType | NominalType.

(** feature_info_mixed.cpp, lines 27-42, and feature_info_equal.cpp, lines 11-50. *)
Definition createFeatureType (info : featureInfo) (i : nat) : option ftype :=
  match info with
  | AllNumerical => Some NumericalType
  | AllOrdinal => Some OrdinalType
  | AllNominal => Some NominalType
  | Mixed ordinal nominal =>
      let* o := bv_get ordinal i in
      if o then Some OrdinalType
      else let* n := bv_get nominal i in Some (if n then NominalType else NumericalType)
  end.
