(** Properties of iterators that are declared to provide random access. *)
From Coq Require Import NArith ZArith QArith Bool List.
From Verif Require Import Model.Addressing Model.Iterators Spec.Iterators Proofs.Iterators.
Import ListNotations.
Open Scope N_scope.

(** ** C145: false; full statement: the iterators that are declared to be random access iterators behave like pointers to the
    elements of an array, i.e., they satisfy [readsElements], [accessesElements], [moves], [returnsPrefix], [returnsPostfix],
    [compares] and [measures]. *)

(** Missing: the effect of the postfix decrement, the results of postfix operators and array access after an iterator has been
    incremented. *)
Theorem C145_index_partial :
  forall n, n < 2 ^ 31 ->
  readsElements indexOperators 0 n (fun k => k) /\ accessesElements indexOperators 0 n (fun k => k) 0 /\
  returnsPrefix indexOperators 0 n /\ compares indexOperators 0 n /\ measures indexOperators 0 n /\
  (forall k, k < n -> fst (postIncrement indexOperators (at_ indexOperators 0 k)) = at_ indexOperators 0 (k + 1)) /\
  visitsAll indexOperators 0 n n (fun k => k).
Proof. exact index_iterator. Qed.
Print Assumptions C145_index_partial.

Example C145_index_partial_example :
  4 < 2 ^ 31 /\ traverse indexOperators false 4 0 4 = Some [0; 1; 2; 3].
Proof. split; reflexivity. Qed.

(** Missing: dereferencing, the results of postfix operators and array access after an iterator has been incremented. *)
Theorem C145_binned_partial :
  forall (V : Type) (bins : memory N) (values : memory V) n, n < 2 ^ 31 -> n <= memSize bins ->
  (forall k, k < n -> memCells bins k < memSize values) ->
  accessesElements (binnedOperators bins values) 0 n (fun k => memCells values (memCells bins k)) 0 /\
  moves (binnedOperators bins values) 0 n /\ returnsPrefix (binnedOperators bins values) 0 n /\
  compares (binnedOperators bins values) 0 n /\ measures (binnedOperators bins values) 0 n.
Proof. exact binned_iterator. Qed.
Print Assumptions C145_binned_partial.

Example C145_binned_partial_example :
  let bins := mkMemory 4 (fun k => k mod 2) in
  let values := mkMemory 2 (fun k => 10 * k) in
  4 < 2 ^ 31 /\ 4 <= memSize bins /\ (forall k, k < 4 -> memCells bins k < memSize values) /\
  subscript (binnedOperators bins values) 0 3 = Some 10.
Proof.
  cbv zeta. split; [reflexivity|]. split; [discriminate|]. split; [|reflexivity]. intros k _. apply N.mod_lt. discriminate.
Qed.

(** Missing: the results of postfix operators and array access after an iterator has been incremented, as well as iterators that
    are provided by vectors. *)
Theorem C145_diagonal_partial :
  forall (V : Type) (view : memory V) n, n < 2 ^ 16 -> n * (n + 1) / 2 <= memSize view ->
  let ops := diagonalOperators view in let element k := memCells view (k * (k + 1) / 2 + k) in
  readsElements ops 0 n element /\ accessesElements ops 0 n element 0 /\ moves ops 0 n /\ returnsPrefix ops 0 n /\
  compares ops 0 n /\ measures ops 0 n /\
  visitsAll ops (fst (viewDiagonalRange n)) (snd (viewDiagonalRange n)) n element.
Proof. exact diagonal_iterator. Qed.
Print Assumptions C145_diagonal_partial.

(** The diagonal of a 3 x 3 matrix. *)
Example C145_diagonal_partial_example :
  let view := mkMemory 6 (fun k => 10 * k) in
  3 < 2 ^ 16 /\ 3 * (3 + 1) / 2 <= memSize view /\ traverse (diagonalOperators view) true 3 0 3 = Some [0; 20; 50].
Proof. cbv zeta. split; [reflexivity|]. split; [discriminate|reflexivity]. Qed.

(** Missing: the results of postfix operators. *)
Theorem C145_sparse_partial :
  forall (view : memory (Q * Q * Q)) (sumOfWeights : Q),
  let ops := sparseOperators view sumOfWeights in let n := memSize view in
  let element k := let '(first, second, third) := memCells view k in (first, (second + (sumOfWeights - third))%Q) in
  readsElements ops 0 n element /\ (forall j, accessesElements ops 0 n element j) /\ moves ops 0 n /\ returnsPrefix ops 0 n /\
  compares ops 0 n /\ measures ops 0 n /\ visitsAll ops 0 n n element.
Proof. exact sparse_iterator. Qed.
Print Assumptions C145_sparse_partial.

Example C145_sparse_partial_example :
  let view := mkMemory 2 (fun k => if k =? 0 then (1, 2, 3) else (4, 5, 6))%Q in
  subscript (sparseOperators view 7) 1 0 = Some (4, 5 + (7 - 6))%Q.
Proof. reflexivity. Qed.

(** The postfix decrement increments the iterator. *)
Theorem C145_decrement_refuted :
  exists n, n < 2 ^ 31 /\ ~ moves indexOperators 0 n.
Proof. exact index_decrement. Qed.
Print Assumptions C145_decrement_refuted.

(** Array access does not take into account that an iterator has been incremented. *)
Theorem C145_subscript_refuted :
  exists n j, n < 2 ^ 31 /\ ~ accessesElements indexOperators 0 n (fun k => k) j.
Proof. exact index_subscript. Qed.
Print Assumptions C145_subscript_refuted.

(** The same applies to binned iterators ... *)
Theorem C145_binned_subscript_refuted :
  exists (bins values : memory N) n j, n < 2 ^ 31 /\ n <= memSize bins /\ (forall k, k < n -> memCells bins k < memSize values) /\
  ~ accessesElements (binnedOperators bins values) 0 n (fun k => memCells values (memCells bins k)) j.
Proof. exact binned_subscript. Qed.
Print Assumptions C145_binned_subscript_refuted.

(** ... and to diagonal iterators. *)
Theorem C145_diagonal_subscript_refuted :
  exists (view : memory N) n j, n < 2 ^ 16 /\ n * (n + 1) / 2 <= memSize view /\
  ~ accessesElements (diagonalOperators view) 0 n (fun k => memCells view (k * (k + 1) / 2 + k)) j.
Proof. exact diagonal_subscript. Qed.
Print Assumptions C145_diagonal_subscript_refuted.

(** Postfix operators return the modified iterator. *)
Theorem C145_postfix_refuted :
  forall (V : Type) (bins : memory N) (values view : memory V) (triples : memory (Q * Q * Q)) (sumOfWeights : Q), exists n, n < 2 ^ 31 /\
  ~ returnsPostfix indexOperators 0 n /\ ~ returnsPostfix (binnedOperators bins values) 0 n /\
  ~ returnsPostfix (diagonalOperators view) 0 n /\ ~ returnsPostfix (sparseOperators triples sumOfWeights) 0 n.
Proof. exact postfix_result. Qed.
Print Assumptions C145_postfix_refuted.

(** The iterators to the beginning and the end of the diagonal that are provided by vectors enclose too many elements. Visiting all
    of them results in undefined behavior. *)
Theorem C145_diagonal_end_refuted :
  exists (view : memory N) n, n < 2 ^ 16 /\ n * (n + 1) / 2 <= memSize view /\
  let ops := diagonalOperators view in let range := vectorDiagonalRange n in
  difference ops (snd range) (fst range) <> Some (Z.of_N n) /\
  forall prefix fuel, traverse ops prefix fuel (fst range) (snd range) = None.
Proof. exact diagonal_end. Qed.
Print Assumptions C145_diagonal_end_refuted.
