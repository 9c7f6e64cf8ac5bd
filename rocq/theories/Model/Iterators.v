(** Model of iterators that are declared to provide random access.
    Sources (below cpp/subprojects): common/src/mlrl/common/iterator/iterator_index.cpp,
    common/include/mlrl/common/iterator/iterator_binned.hpp, boosting/include/mlrl/boosting/iterator/iterator_diagonal.hpp,
    boosting/src/mlrl/boosting/data/vector_statistic_decomposable_sparse.cpp, vector_statistic_non_decomposable_dense.cpp,
    view_statistic_non_decomposable_dense.cpp. *)
From Coq Require Import NArith ZArith QArith Bool.
From Verif Require Import Model.Rng Model.Addressing.
Open Scope N_scope.

(** The operators of an iterator. [It] are the iterators and [V] the values they provide access to. Operators that modify an
    iterator yield the modified iterator, as well as the iterator that is returned by the operator. [None]: undefined behavior. *)
Record operators (It V : Type) := mkOperators {
  subscript : It -> N -> option V;
  dereference : It -> option V;
  preIncrement : It -> It * It;
  postIncrement : It -> It * It;
  preDecrement : It -> It * It;
  postDecrement : It -> It * It;
  notEqual : It -> It -> bool;
  equal : It -> It -> bool;
  difference : It -> It -> option Z }.
Arguments mkOperators {It V}. Arguments subscript {It V}. Arguments dereference {It V}. Arguments preIncrement {It V}.
Arguments postIncrement {It V}. Arguments preDecrement {It V}. Arguments postDecrement {It V}. Arguments notEqual {It V}.
Arguments equal {It V}. Arguments difference {It V}.

Definition increment32 (x : N) : N := u32 (x + 1).

Definition decrement32 (x : N) : N := u32 (x + (2 ^ 32 - 1)).

(** The conversion of an unsigned 32-bit integer into a signed one. *)
Definition toInt (x : N) : Z := if x <? 2 ^ 31 then Z.of_N x else (Z.of_N x - 2 ^ 32)%Z.

(** The difference of two signed integers. An overflow is undefined behavior. *)
Definition subtractInt (x y : Z) : option Z :=
  if (((- 2 ^ 31) <=? x - y) && (x - y <? 2 ^ 31))%Z then Some (x - y)%Z else None.

(** An operator that modifies an iterator and returns a reference to it ([return *this]). *)
Definition returnThis (it : N) : N * N := (it, it).

(** iterator_index.cpp, lines 7-45. *)
Definition indexOperators : operators N N := mkOperators
  (fun it index => Some index)
  (fun it => Some it)
  (fun it => returnThis (increment32 it))
  (fun it => returnThis (increment32 it))
  (fun it => returnThis (decrement32 it))
  (fun it => returnThis (increment32 it))
  (fun it rhs => negb (it =? rhs))
  (fun it rhs => it =? rhs)
  (fun it rhs => subtractInt (toInt it) (toInt rhs)).

(** iterator_binned.hpp, lines 67-171. The operator for dereferencing (lines 88-91 and 98-101) cannot be compiled if it is used,
    because the operator [*] is applied to an integer. *)
Definition binnedOperators {V : Type} (binIndexView : memory N) (valueView : memory V) : operators N V := mkOperators
  (fun it index => match load binIndexView index with Some binIndex => load valueView binIndex | None => None end)
  (fun it => None)
  (fun it => returnThis (increment32 it))
  (fun it => returnThis (increment32 it))
  (fun it => returnThis (decrement32 it))
  (fun it => returnThis (decrement32 it))
  (fun it rhs => negb (it =? rhs))
  (fun it rhs => it =? rhs)
  (fun it rhs => Some (toInt (u32 (it + (2 ^ 32 - rhs))))).

(** iterator_diagonal.hpp, lines 65-165. *)
Definition diagonalOperators {V : Type} (view : memory V) : operators N V := mkOperators
  (fun it index => load view (u32 (triangularNumber32 (u32 (index + 1)) + (2 ^ 32 - 1))))
  (fun it => load view (u32 (triangularNumber32 (u32 (it + 1)) + (2 ^ 32 - 1))))
  (fun it => returnThis (increment32 it))
  (fun it => returnThis (increment32 it))
  (fun it => returnThis (decrement32 it))
  (fun it => returnThis (decrement32 it))
  (fun it rhs => negb (it =? rhs))
  (fun it rhs => it =? rhs)
  (fun it rhs => subtractInt (toInt it) (toInt rhs)).

(** vector_statistic_decomposable_sparse.cpp, lines 70-119: the iterator is a pointer to an element of an array of triples, which is
    modelled by the position of the element. Decrementing a pointer to the first element is undefined behavior, which is not
    considered. The difference of two pointers is converted into an integer. *)
Definition sparseValue (sumOfWeights : Q) (triple : Q * Q * Q) : Q * Q :=
  let '(first, second, third) := triple in (first, (second + (sumOfWeights - third))%Q).

(** See above (vector_statistic_decomposable_sparse.cpp, lines 70-119). *)
Definition loadSparse (view : memory (Q * Q * Q)) (sumOfWeights : Q) (address : N) : option (Q * Q) :=
  match load view address with Some triple => Some (sparseValue sumOfWeights triple) | None => None end.

(** See above (vector_statistic_decomposable_sparse.cpp, lines 70-119). *)
Definition sparseOperators (view : memory (Q * Q * Q)) (sumOfWeights : Q) : operators N (Q * Q) := mkOperators
  (fun it index => loadSparse view sumOfWeights (it + index))
  (fun it => loadSparse view sumOfWeights it)
  (fun it => returnThis (it + 1))
  (fun it => returnThis (it + 1))
  (fun it => returnThis (it - 1))
  (fun it => returnThis (it - 1))
  (fun it rhs => negb (it =? rhs))
  (fun it rhs => it =? rhs)
  (fun it rhs => Some (Z.of_N it - Z.of_N rhs)%Z).

(** The iterators to the beginning and the end of the diagonal: vector_statistic_non_decomposable_dense.cpp, lines 56-64, where
    the number of Hessians is given by lines 7-11 and 70-72, and view_statistic_non_decomposable_dense.cpp, lines 52-60. *)
Definition vectorDiagonalRange (numGradients : N) : N * N := (0, triangularNumber32 numGradients).

(** See above (vector_statistic_non_decomposable_dense.cpp, lines 56-64; vector_statistic_non_decomposable_dense.cpp, lines 7-11
    and 70-72; view_statistic_non_decomposable_dense.cpp, lines 52-60). *)
Definition viewDiagonalRange (numCols : N) : N * N := (0, numCols).

(** A client that visits all elements between two iterators: [for (; it != end; it++) { visit( *it ); }]. [None] if the end is not
    reached within [fuel] steps or if an element cannot be accessed. *)
Fixpoint traverse {It V : Type} (ops : operators It V) (prefix : bool) (fuel : nat) (it last : It) : option (list V) :=
  if notEqual ops it last then
    match fuel with
    | O => None
    | S fuel =>
        match dereference ops it with
        | None => None
        | Some v =>
            match traverse ops prefix fuel (fst (if prefix then preIncrement ops it else postIncrement ops it)) last with
            | Some l => Some (v :: l)%list
            | None => None
            end
        end
    end
  else Some nil.
