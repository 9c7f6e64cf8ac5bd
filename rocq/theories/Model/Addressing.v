(** Model of the memory that is used by dense matrices and of the addresses of their elements.
    Sources (below cpp/subprojects): common/include/mlrl/common/util/memory.hpp, common/data/view_matrix_dense.hpp,
    view_matrix_c_contiguous.hpp, view_matrix_fortran_contiguous.hpp, view_matrix_sparse_set.hpp,
    boosting/include/mlrl/boosting/util/math.hpp, boosting/data/view_statistic_non_decomposable_dense.cpp,
    vector_statistic_non_decomposable_dense.cpp.
    All sizes, indices and products are unsigned 32-bit integers. Adding an index to a pointer does not wrap around,
    because pointers are assumed to have 64 bits. *)
From Coq Require Import NArith Bool.
From Verif Require Import Model.Rng.
Open Scope N_scope.

(** An array: the number of its elements and their values. The array is not stored as a list, because billions of elements
    must be considered. *)
Record memory (V : Type) := mkMemory { memSize : N; memCells : N -> V }.
Arguments mkMemory {V}. Arguments memSize {V}. Arguments memCells {V}.

(** Array access; [None]: undefined behavior. *)
Definition load {V : Type} (m : memory V) (address : N) : option V :=
  if address <? memSize m then Some (memCells m address) else None.

Definition store {V : Type} (m : memory V) (address : N) (v : V) : option (memory V) :=
  if address <? memSize m then Some (mkMemory (memSize m) (fun a => if a =? address then v else memCells m a)) else None.

(** memory.hpp, lines 20-27: [malloc] provides arbitrary values [junk], [calloc] zeros. The argument [numElements] is of
    type [uint32]. It is assumed that the allocation succeeds. *)
Definition allocateMemory {V : Type} (zero : V) (junk : N -> V) (numElements : N) (init : bool) : memory V :=
  mkMemory (u32 numElements) (if init then fun _ => zero else junk).

(** A dense matrix (view_matrix_dense.hpp, line 27). *)
Record matrix (V : Type) := mkMatrix { mxArray : memory V; mxRows : N; mxCols : N }.
Arguments mkMatrix {V}. Arguments mxArray {V}. Arguments mxRows {V}. Arguments mxCols {V}.

(** view_matrix_dense.hpp, lines 73-74. *)
Definition allocateMatrix {V : Type} (zero : V) (junk : N -> V) (numRows numCols : N) (init : bool) : matrix V :=
  mkMatrix (allocateMemory zero junk (u32 (numRows * numCols)) init) numRows numCols.

(** view_matrix_dense.hpp, lines 54-56: the first [numElements] elements are set to zero. *)
Definition clearMatrix {V : Type} (zero : V) (m : matrix V) : option (matrix V) :=
  let numElements := u32 (mxRows m * mxCols m) in
  if numElements <=? memSize (mxArray m) then
    Some (mkMatrix (mkMemory (memSize (mxArray m)) (fun a => if a <? numElements then zero else memCells (mxArray m) a))
            (mxRows m) (mxCols m))
  else None.

(** view_matrix_c_contiguous.hpp, lines 76-78 and 96-98, as well as 86-88 and 106-108: the addresses where a row starts and
    ends. *)
Definition rowBegin {V : Type} (m : matrix V) (row : N) : N := u32 (row * mxCols m).

(** See above (view_matrix_c_contiguous.hpp, lines 76-78 and 96-98, 86-88 and 106-108). *)
Definition rowEnd {V : Type} (m : matrix V) (row : N) : N := u32 (u32 (row + 1) * mxCols m).

(** The element at a specific column of the row that is returned by lines 56-58, 66-68, 76-78 or 96-98. *)
Definition getC {V : Type} (m : matrix V) (row col : N) : option V := load (mxArray m) (rowBegin m row + col).

(** See above (view_matrix_c_contiguous.hpp, lines 56-58, 66-68, 76-78 or 96-98). *)
Definition setC {V : Type} (m : matrix V) (row col : N) (v : V) : option (matrix V) :=
  match store (mxArray m) (rowBegin m row + col) v with
  | Some a => Some (mkMatrix a (mxRows m) (mxCols m))
  | None => None
  end.

(** view_matrix_fortran_contiguous.hpp, lines 76-78 and 96-98, as well as 86-88 and 106-108: the addresses where a column
    starts and ends. *)
Definition columnBegin {V : Type} (m : matrix V) (column : N) : N := u32 (column * mxRows m).

(** See above (view_matrix_fortran_contiguous.hpp, lines 76-78 and 96-98, 86-88 and 106-108). *)
Definition columnEnd {V : Type} (m : matrix V) (column : N) : N := u32 (u32 (column + 1) * mxRows m).

(** The element at a specific row of the column that is returned by lines 56-58, 66-68, 76-78 or 96-98. *)
Definition getF {V : Type} (m : matrix V) (row col : N) : option V := load (mxArray m) (columnBegin m col + row).

(** See above (view_matrix_fortran_contiguous.hpp, lines 56-58, 66-68, 76-78 or 96-98). *)
Definition setF {V : Type} (m : matrix V) (row col : N) (v : V) : option (matrix V) :=
  match store (mxArray m) (columnBegin m col + row) v with
  | Some a => Some (mkMatrix a (mxRows m) (mxCols m))
  | None => None
  end.

(** boosting/util/math.hpp, lines 16-18. *)
Definition triangularNumber32 (n : N) : N := u32 (n * u32 (n + 1)) / 2.

(** view_statistic_non_decomposable_dense.cpp, lines 7-10: the matrix that stores Hessians. *)
Definition allocateHessians {V : Type} (zero : V) (junk : N -> V) (numRows numCols : N) : matrix V :=
  allocateMatrix zero junk numRows (triangularNumber32 numCols) false.

(** vector_statistic_non_decomposable_dense.cpp, lines 113-117: the Hessian that corresponds to a pair of outputs is found
    at the position [triangularNumber(i) + j], where [j <= i]. *)
Definition getHessian {V : Type} (m : matrix V) (row i j : N) : option V :=
  load (mxArray m) (rowBegin m row + triangularNumber32 i + j).

(** See above (vector_statistic_non_decomposable_dense.cpp, lines 113-117). *)
Definition setHessian {V : Type} (m : matrix V) (row i j : N) (v : V) : option (matrix V) :=
  match store (mxArray m) (rowBegin m row + triangularNumber32 i + j) v with
  | Some a => Some (mkMatrix a (mxRows m) (mxCols m))
  | None => None
  end.
