(** Properties of the creation of feature vectors. *)
From Coq Require Import ZArith Arith List Bool Lia Permutation.
From Verif Require Import Model.Filter Model.FeatureTypes Spec.Filter Spec.FeatureTypes.
From Verif Require Import Proofs.FeatureTypes Proofs.FeatureVectors.
Import ListNotations.
Open Scope nat_scope.

(** ** C109: Vectors for nominal and ordinal features describe the values of the feature
    Missing: for sparse matrices, no value that is equal to the sparse value must be stored explicitly, unless there are no
    other elements. *)
(** Dense matrices, for any order in which the hash map is iterated. *)
Theorem C109_dense : forall iterated sortValues ordinal values,
  (forall m, Permutation (iterated m) m) -> sortsValues sortValues -> allFit values ->
  let col := truncated (denseColumn values) in
  let examples := seq 0 (length values) in
  exists vec, createCategoricalDense iterated sortValues ordinal values = Some vec /\
    represents col examples vec /\ (vec = EqualVec <-> constant col examples) /\ kindOf ordinal (numDistinct col examples) vec.
Proof. exact categorical_dense_vectors. Qed.
Print Assumptions C109_dense.

Example C109_dense_example :
  let values := map (fun x => Some (x * unit32)%Z) [2; 0; 1; 0]%Z ++ [None; Some (unit32 * 3 / 2)%Z] in
  allFit values /\
  createCategoricalDense (fun m => m) sortZ false values = Some (NominalVec Nominal [2; 1]%Z [[0]; [5; 2]] 0 [4]) /\
  createCategoricalDense (fun m => rev m) sortZ true values = Some (NominalVec Ordinal [0; 2]%Z [[3; 1]; [0]] 1 [4]) /\
  createCategoricalDense (fun m => m) sortZ true (firstn 2 values ++ firstn 1 values) =
    Some (NominalVec Binary [0]%Z [[1]] 2 []) /\
  sortsValues sortZ.
Proof.
  split; [|split; [|split; [|split]]].
  - intros x H. vm_compute in H. repeat (destruct H as [H|H]; [first [discriminate H|injection H as <-; vm_compute; split; [discriminate|reflexivity]]|]).
    destruct H.
  - vm_compute. reflexivity.
  - vm_compute. reflexivity.
  - vm_compute. reflexivity.
  - exact sortZ_sorts.
Qed.

(** No value is more frequent than the one that is not stored. *)
Theorem C109_majority : forall iterated sortValues ordinal values k vs bins majority missing v,
  (forall m, Permutation (iterated m) m) -> sortsValues sortValues -> allFit values ->
  createCategoricalDense iterated sortValues ordinal values = Some (NominalVec k vs bins majority missing) ->
  let col := truncated (denseColumn values) in
  let examples := seq 0 (length values) in
  frequency col examples v <= frequency col examples majority.
Proof. exact categorical_dense_majority. Qed.
Print Assumptions C109_majority.

Example C109_majority_example :
  let values := map (fun x => Some (x * unit32)%Z) [2; 0; 1; 0; 2; 0]%Z in
  createCategoricalDense (fun m => m) sortZ true values = Some (NominalVec Ordinal [1; 2]%Z [[2]; [4; 0]] 0 []) /\
  frequency (truncated (denseColumn values)) (seq 0 6) 2 = 2 /\ frequency (truncated (denseColumn values)) (seq 0 6) 0 = 3.
Proof. split; [|split]; vm_compute; reflexivity. Qed.

(** Sparse matrices. *)
Theorem C109_sparse_partial : forall iterated sortValues ordinal numRows sparseValue elements,
  (forall m, Permutation (iterated m) m) -> sortsValues sortValues ->
  wellFormed numRows elements -> allFit (map snd elements) -> fitsInt32 sparseValue ->
  noExplicitSparseValues sparseValue elements \/ length elements = numRows ->
  let col := truncated (sparseColumn sparseValue elements) in
  let examples := seq 0 numRows in
  exists vec, createCategoricalSparse iterated sortValues ordinal numRows sparseValue elements = Some vec /\
    represents col examples vec /\ (vec = EqualVec <-> constant col examples) /\ kindOf ordinal (numDistinct col examples) vec.
Proof. exact categorical_sparse_vectors. Qed.
Print Assumptions C109_sparse_partial.

Example C109_sparse_partial_example :
  let elements := [(1, Some (unit32 * 2)%Z); (4, None); (3, Some unit32); (0, Some (unit32 * 2)%Z)] in
  wellFormed 6 elements /\ allFit (map snd elements) /\ fitsInt32 0 /\ noExplicitSparseValues 0 elements /\
  createCategoricalSparse (fun m => m) sortZ true 6 0 elements = Some (NominalVec Ordinal [1; 2]%Z [[3]; [0; 1]] 0 [4]).
Proof.
  split; [|split; [|split; [|split]]].
  - split; [repeat constructor; simpl; intuition discriminate|].
    intros e H. repeat (destruct H as [<-|H]; [simpl; lia|]). destruct H.
  - intros x H. vm_compute in H. repeat (destruct H as [H|H]; [first [discriminate H|injection H as <-; vm_compute; split; [discriminate|reflexivity]]|]).
    destruct H.
  - vm_compute. split; [discriminate|reflexivity].
  - intros i x H. vm_compute in H. repeat (destruct H as [H|H]; [first [discriminate H|injection H as <- <-; vm_compute; discriminate]|]). destruct H.
  - vm_compute. reflexivity.
Qed.

(** If a sparse value is stored explicitly, the number of values is overestimated, and elements that are never initialised are
    read. *)
Theorem C109_uninitialised_refuted : exists numRows sparseValue elements,
    wellFormed numRows elements /\ allFit (map snd elements) /\ fitsInt32 sparseValue /\
    forall iterated sortValues ordinal, (forall m, Permutation (iterated m) m) ->
      createCategoricalSparse iterated sortValues ordinal numRows sparseValue elements = None.
Proof. exact explicit_sparse_values_uninitialised. Qed.
Print Assumptions C109_uninitialised_refuted.

(** Although all examples have the same value, a vector that distinguishes the one that is stored explicitly is created. *)
Theorem C109_wrong_refuted : exists numRows sparseValue elements,
    wellFormed numRows elements /\ allFit (map snd elements) /\ fitsInt32 sparseValue /\
    constant (truncated (sparseColumn sparseValue elements)) (seq 0 numRows) /\
    forall iterated sortValues ordinal, (forall m, Permutation (iterated m) m) ->
      exists value index, createCategoricalSparse iterated sortValues ordinal numRows sparseValue elements =
        Some (NominalVec Binary [value] [[index]] value []).
Proof. exact explicit_sparse_values_wrong. Qed.
Print Assumptions C109_wrong_refuted.

(** ** C110: Vectors for numerical features describe the values of the feature *)
(** Dense matrices. *)
Theorem C110_dense : forall isEqual sort values, sortsPairs sort ->
  let col := denseColumn values in
  let examples := seq 0 (length values) in
  exists vec, createNumericalDense isEqual sort values = Some vec /\ represents col examples vec /\
    (vec = EqualVec <-> indistinct isEqual col examples) /\
    (forall v sparseValue sparse missing, vec = NumericalVec v sparseValue sparse missing -> sparse = false).
Proof. exact numerical_dense_vectors. Qed.
Print Assumptions C110_dense.

Example C110_dense_example :
  createNumericalDense Z.eqb sortP [Some 5; None; Some (-2); Some 5]%Z =
    Some (NumericalVec [(2, (-2)%Z); (0, 5%Z); (3, 5%Z)] 0 false [1]) /\
  createNumericalDense Z.eqb sortP [Some 5; None; Some 5]%Z = Some EqualVec /\ sortsPairs sortP.
Proof. split; [vm_compute; reflexivity|]. split; [vm_compute; reflexivity|exact sortP_sorts]. Qed.

(** Sparse matrices. *)
Theorem C110_sparse : forall isEqual sort numRows sparseValue elements, sortsPairs sort ->
  isEqual sparseValue sparseValue = true -> wellFormed numRows elements ->
  let col := sparseColumn sparseValue elements in
  let examples := seq 0 numRows in
  exists vec, createNumericalSparse isEqual sort numRows sparseValue elements = Some vec /\
    represents col examples vec /\ (vec = EqualVec -> indistinct isEqual col examples).
Proof. exact numerical_sparse_vectors. Qed.
Print Assumptions C110_sparse.

Example C110_sparse_example :
  let elements := [(3, Some 5%Z); (1, None); (0, Some (-2)%Z)] in
  wellFormed 5 elements /\
  createNumericalSparse Z.eqb sortP 5 1 elements = Some (NumericalVec [(0, (-2)%Z); (3, 5%Z)] 1 true [1]).
Proof.
  split; [|vm_compute; reflexivity]. split; [repeat constructor; simpl; intuition discriminate|].
  intros e H. repeat (destruct H as [<-|H]; [simpl; lia|]). destruct H.
Qed.
