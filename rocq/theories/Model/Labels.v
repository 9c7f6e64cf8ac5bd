(** Model of iterators over sparse rows, of label vectors and of the conversion of sparse predictions.
    Sources (below cpp/subprojects/common): include/mlrl/common/iterator/iterator_forward_sparse.hpp,
    iterator_forward_sparse_binary.hpp, iterator_forward_non_zero_index.hpp,
    src/mlrl/common/input/label_matrix_c_contiguous.cpp, label_matrix_csr.cpp,
    src/mlrl/common/prediction/label_vector_set.cpp, prediction_matrix_sparse_binary.cpp,
    include/mlrl/common/data/view_matrix_csr_binary.hpp. *)
From Coq Require Import Arith List Bool.
From Verif Require Import Lib.Arr.
Import ListNotations.
Open Scope nat_scope.

(** * Forward iterators over sparse rows *)

(** iterator_forward_sparse.hpp, lines 24-36: remaining indices and values ([indexIterator_] up to
    [indicesEnd_], [valueIterator_] up to [valuesEnd_]), [index_], [iteratorIndex_], [sparseValue_]. *)
Record sparse_it (V : Type) := mkSparseIt {
  si_indices : list nat; si_values : list V; si_index : nat; si_iteratorIndex : nat; si_sparse : V }.
Arguments mkSparseIt {V}. Arguments si_indices {V}. Arguments si_values {V}. Arguments si_index {V}.
Arguments si_iteratorIndex {V}. Arguments si_sparse {V}.

(** iterator_forward_sparse.hpp, lines 52-57. *)
Definition si_create {V} (indices : list nat) (values : list V) (startIndex : nat) (sparseValue : V) : sparse_it V :=
  mkSparseIt indices values startIndex (match indices with i :: _ => i | [] => 0 end) sparseValue.

(** iterator_forward_sparse.hpp, lines 89-95. *)
Definition si_deref {V} (it : sparse_it V) : option V :=
  match si_indices it with
  | _ :: _ =>
      if si_iteratorIndex it =? si_index it then nth_error (si_values it) 0 else Some (si_sparse it)
  | [] => Some (si_sparse it)
  end.

(** iterator_forward_sparse.hpp, lines 102-115 (prefix) and 122-135 (postfix, same body). Incrementing
    [valueIterator_] past its end is undefined behaviour. *)
Definition si_incr {V} (it : sparse_it V) : option (sparse_it V) :=
  let index := si_index it + 1 in
  match si_indices it with
  | _ :: rest =>
      if si_iteratorIndex it <? index then
        match si_values it with
        | _ :: vrest =>
            Some (mkSparseIt rest vrest index
                    (match rest with i :: _ => i | [] => si_iteratorIndex it end) (si_sparse it))
        | [] => None
        end
      else Some (mkSparseIt (si_indices it) (si_values it) index (si_iteratorIndex it) (si_sparse it))
  | [] => Some (mkSparseIt [] (si_values it) index (si_iteratorIndex it) (si_sparse it))
  end.

(** A client that reads [n] consecutive positions: dereference, then increment. *)
Fixpoint si_read {V} (n : nat) (it : sparse_it V) : option (list V) :=
  match n with
  | 0 => Some []
  | S n' =>
      let* v := si_deref it in
      let* it' := si_incr it in
      let* rest := si_read n' it' in
      Some (v :: rest)
  end.

(** iterator_forward_sparse_binary.hpp, lines 22-28. *)
Record bsparse_it := mkBIt { bi_indices : list nat; bi_index : nat; bi_iteratorIndex : nat }.

(** iterator_forward_sparse_binary.hpp, lines 39-41. *)
Definition bi_create (indices : list nat) (startIndex : nat) : bsparse_it :=
  mkBIt indices startIndex (match indices with i :: _ => i | [] => 0 end).

(** iterator_forward_sparse_binary.hpp, lines 73-75. *)
Definition bi_deref (it : bsparse_it) : bool :=
  match bi_indices it with [] => false | _ => bi_iteratorIndex it =? bi_index it end.

(** iterator_forward_sparse_binary.hpp, lines 82-94 and 101-113. *)
Definition bi_incr (it : bsparse_it) : bsparse_it :=
  let index := bi_index it + 1 in
  match bi_indices it with
  | _ :: rest =>
      if bi_iteratorIndex it <? index then
        mkBIt rest index (match rest with i :: _ => i | [] => bi_iteratorIndex it end)
      else mkBIt (bi_indices it) index (bi_iteratorIndex it)
  | [] => mkBIt [] index (bi_iteratorIndex it)
  end.

(** See above (iterator_forward_sparse_binary.hpp, lines 82-94 and 101-113). *)
Fixpoint bi_read (n : nat) (it : bsparse_it) : list bool :=
  match n with 0 => [] | S n' => bi_deref it :: bi_read n' (bi_incr it) end.

(** * Iterator over the positions of non-zero elements *)

(** iterator_forward_non_zero_index.hpp, lines 34-42, 88-96 and 110-118: skip zeros, counting them. *)
Fixpoint nz_skip (l : list bool) (index : nat) : list bool * nat :=
  match l with
  | [] => ([], index)
  | b :: rest => if b then (l, index) else nz_skip rest (index + 1)
  end.

(** iterator_forward_non_zero_index.hpp, lines 84-99: [iterator_++; ++index_] and skip. *)
Definition nz_incr (it : list bool * nat) : list bool * nat :=
  match fst it with [] => it | _ :: rest => nz_skip rest (snd it + 1) end.

(** A client that reads until the iterator equals the end iterator (lines 129-141 compare positions); [fuel]
    bounds the number of elements. *)
Fixpoint nz_collect (fuel : nat) (it : list bool * nat) : list nat :=
  match fuel with
  | 0 => []
  | S f => match fst it with [] => [] | _ => snd it :: nz_collect f (nz_incr it) end
  end.
(** See above (iterator_forward_non_zero_index.hpp, lines 129-141). *)
Definition nz_read (l : list bool) : list nat := nz_collect (length l) (nz_skip l 0).

(** * Label vectors *)

(** label_matrix_c_contiguous.cpp, lines 61-78. The vector is allocated with [numCols] elements and trimmed to
    [n]; [uninit] is its unspecified initial content. *)
Definition denseLabelVector (uninit : list nat) (row : list bool) : option (list nat) :=
  let* (arr, n) :=
    forN (length row) 0 (fun i st =>
      let '(arr, n) := st in
      let* b := aget row i in
      if b : bool then let* arr' := aset arr n i in Some (arr', n + 1) else Some (arr, n))
      (uninit, 0) in
  Some (firstn n arr).

(** view_matrix_csr_binary.hpp, lines 78-90: the elements between [indices_cbegin(row)] and
    [indices_cend(row)]. *)
Definition csrRow (indices indptr : list nat) (row : nat) : option (list nat) :=
  let* s := aget indptr row in
  let* e := aget indptr (row + 1) in
  if (s <=? e) && (e <=? length indices) then Some (firstn (e - s) (skipn s indices)) else None.

(** label_matrix_csr.cpp, lines 57-65. *)
Definition csrLabelVector (indices indptr : list nat) (row : nat) : option (list nat) := csrRow indices indptr row.

(** view_vector.hpp, line 51, and util/view_functions.hpp, lines 265-278: lengths, then elements. *)
Definition equalViews (a b : list nat) : bool :=
  if length a =? length b then forallb (fun p => fst p =? snd p) (combine a b) else false.

(** label_vector_set.cpp, lines 14-34. The hash map from label vectors to positions is modelled by a search
    for an equal label vector (hash collisions do not affect [find]). *)
Fixpoint findEqual (vs : list (list nat)) (v : list nat) (i : nat) : option nat :=
  match vs with
  | [] => None
  | u :: rest => if equalViews u v then Some i else findEqual rest v (i + 1)
  end.

(** See above (label_vector_set.cpp, lines 14-34). *)
Fixpoint labelVectorSet (input : list (list nat)) (vs : list (list nat)) (fs : list nat)
  : option (list (list nat) * list nat) :=
  match input with
  | [] => Some (vs, fs)
  | v :: rest =>
      match findEqual vs v 0 with
      | None => labelVectorSet rest (vs ++ [v]) (fs ++ [1])
      | Some index =>
          let* f := aget fs index in
          let* fs' := aset fs index (f + 1) in
          labelVectorSet rest vs fs'
      end
  end.

(** Undefined behaviour of any element makes the list undefined. *)
Fixpoint sequence {A} (l : list (option A)) : option (list A) :=
  match l with
  | [] => Some []
  | o :: rest => let* x := o in let* xs := sequence rest in Some (x :: xs)
  end.

(** The label vector set of a dense and of a sparse label matrix. *)
Definition denseLabelVectorSet (uninit : nat -> list nat) (rows : list (list bool)) :=
  let* lvs := sequence (map (fun p => denseLabelVector (uninit (fst p)) (snd p))
                            (combine (seq 0 (length rows)) rows)) in
  labelVectorSet lvs [] [].

Definition csrLabelVectorSet (indices indptr : list nat) (numRows : nat) :=
  let* lvs := sequence (map (csrLabelVector indices indptr) (seq 0 numRows)) in
  labelVectorSet lvs [] [].

(** * Sparse predictions *)

(** prediction_matrix_sparse_binary.cpp, lines 11-14. *)
Fixpoint copyRow (row : list nat) (indices : list nat) (n : nat) : option (list nat * nat) :=
  match row with
  | [] => Some (indices, n)
  | x :: rest => let* indices' := aset indices n x in copyRow rest indices' (n + 1)
  end.

(** prediction_matrix_sparse_binary.cpp, lines 3-16, and view_matrix_csr_binary.hpp, lines 137-142 (allocation
    and first and last row pointer). *)
Definition lilToCsr (uninitIndices uninitIndptr : list nat) (rows : list (list nat)) (numDenseElements : nat)
  : option (list nat * list nat) :=
  let* indptr0 := aset uninitIndptr 0 0 in
  let* indptr1 := aset indptr0 (length rows) numDenseElements in
  let* (ii, n) :=
    forN (length rows) 0 (fun i st =>
      let '((indices, indptr), n) := st in
      let* indptr' := aset indptr i n in
      let* row := aget rows i in
      let* (indices', n') := copyRow row indices n in
      Some ((indices', indptr'), n'))
      ((uninitIndices, indptr1), 0) in
  Some ii.
