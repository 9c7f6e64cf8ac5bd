(** Definitions for stating the properties of the matrices and feature types that are handed from Python to C++. *)
From Coq Require Import List Bool Arith ZArith NArith.
From Verif Require Import Lib.Arr Model.Estimators.
Import ListNotations.

(** The valid indices of rows and columns of a matrix that is given by the user. *)
Definition inShape {V} (x : input V) (i j : nat) : Prop :=
  match x with
  | DenseInput m => exists row, nth_error m i = Some row /\ j < length row
  | SparseInput s => i < srows s /\ j < scols s
  end.

(** At most one value is stored for each element of a sparse matrix and the indices of elements are valid. *)
Definition validInput {V} (x : input V) : Prop :=
  match x with
  | DenseInput _ => True
  | SparseInput s =>
      NoDup (map fst (sstored s)) /\
      Forall (fun e => fst (fst e) < srows s /\ snd (fst e) < scols s) (sstored s)
  end.

(** A sparse matrix may explicitly store elements that are equal to zero. *)
Definition storesZero {V} (zero : V) (x : input V) : Prop :=
  match x with DenseInput _ => False | SparseInput s => exists ij, In (ij, zero) (sstored s) end.

(** The value [v] is given by the user for an element. *)
Definition given {V} (x : input V) (sparseValue : V) (i j : nat) (v : V) : Prop :=
  match x with
  | DenseInput m => exists row, nth_error m i = Some row /\ nth_error row j = Some v
  | SparseInput s => In ((i, j), v) (sstored s) \/ (~ In (i, j) (map fst (sstored s)) /\ v = sparseValue)
  end.

(** The value of an element of a matrix that is used by the C++ code. *)
Definition elementIs (m : fmatrix) (i j : nat) (v : fvalue) : Prop :=
  match m with
  | DenseMatrix m => exists row, nth_error m i = Some row /\ nth_error row j = Some v
  | SparseMatrix numRows numCols stored sparseValue =>
      (i < numRows /\ j < numCols) /\
      (In ((i, j), v) stored \/ (~ In (i, j) (map fst stored) /\ v = sparseValue))
  end.

(** Whether a label is relevant according to a label matrix that is used by the C++ code. *)
Definition relevantIn (m : lmatrix) (i j : nat) : Prop :=
  match m with
  | DenseLabels m => exists row v, nth_error m i = Some row /\ nth_error row j = Some v /\ v <> 0%Z
  | SparseLabels numRows numCols indices => In (i, j) indices
  end.

(** All values are zero or one. *)
Definition binaryInput (y : input Z) : Prop :=
  match y with
  | DenseInput m => Forall (Forall (fun v => v = 0%Z \/ v = 1%Z)) m
  | SparseInput s => Forall (fun e => snd e = 0%Z \/ snd e = 1%Z) (sstored s)
  end.

(** Whether a matrix uses a format that is supported and stores at least one element. *)
Definition usable {V} (x : input V) : Prop :=
  match x with
  | DenseInput _ => True
  | SparseInput s => In (sfmt s) [LIL; COO; DOK; CSR; CSC] /\ sstored s <> []
  end.

(** The number of bytes that are needed by matrices: In addition to the row or column index of each element and the element itself
    (unless all stored elements are equal), a sparse matrix stores one index per row or column, and another one. *)
Definition denseBytes {V} (s : smatrix V) (itemsize : nat) : nat := srows s * scols s * itemsize.
Definition sparseBytes {V} (s : smatrix V) (colWise : bool) (itemsize : nat) : nat :=
  length (sstored s) * (itemsize + 4) + ((if colWise then scols s else srows s) + 1) * 4.

Definition usesSparse (r : option (created fmatrix)) : Prop :=
  match r with Some (Created (SparseMatrix _ _ _ _)) => True | _ => False end.
Definition usesDense (r : option (created fmatrix)) : Prop :=
  match r with Some (Created (DenseMatrix _)) => True | _ => False end.
Definition usesSparseLabels (r : option (created lmatrix)) : Prop :=
  match r with Some (Created (SparseLabels _ _ _)) => True | _ => False end.
Definition usesDenseLabels (r : option (created lmatrix)) : Prop :=
  match r with Some (Created (DenseLabels _)) => True | _ => False end.

(** The indices that have been set by the user. *)
Definition indicesIn (l : option (list Z)) : list Z := match l with Some l => l | None => [] end.

(** All indices are valid, different and correspond to either ordinal or nominal features. *)
Definition validIndices (numFeatures : nat) (ordinal nominal : option (list Z)) : Prop :=
  NoDup (indicesIn ordinal ++ indicesIn nominal) /\
  forall i, In i (indicesIn ordinal ++ indicesIn nominal) -> (0 <= i < Z.of_nat numFeatures)%Z.

(** The type of a feature according to the indices that have been set by the user. *)
Definition typeIs (ordinal nominal : option (list Z)) (i : nat) (t : ftype) : Prop :=
  match t with
  | OrdinalType => In (Z.of_nat i) (indicesIn ordinal)
  | NominalType => In (Z.of_nat i) (indicesIn nominal)
  | NumericalType => ~ In (Z.of_nat i) (indicesIn ordinal) /\ ~ In (Z.of_nat i) (indicesIn nominal)
  end.
