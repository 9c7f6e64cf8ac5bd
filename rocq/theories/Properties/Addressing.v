(** Properties of the memory that is used by dense matrices. *)
From Coq Require Import NArith Bool Lia.
From Verif Require Import Model.Addressing Spec.Addressing Proofs.Addressing.
Open Scope N_scope.

(** ** C144: false; full statement: the elements of a dense matrix can be accessed and modified independently of each other, for
    all numbers of rows and columns that can be represented. The same applies to Hessian matrices. *)

(** Missing: matrices with 2^32 or more elements, for which the property does not hold. [v] and [w] ensure that there are at
    least two values. *)
Theorem C144_rows_partial :
  forall (V : Type) (zero : V) (junk : N -> V) (init : bool) (numRows numCols : N) (v w : V),
  numRows < 2 ^ 32 -> numCols < 2 ^ 32 -> v <> w ->
  (separate (inMatrix numRows numCols) (fun m i => getC m (fst i) (snd i)) (fun m i => setC m (fst i) (snd i))
     (allocateMatrix zero junk numRows numCols init) <-> numRows * numCols < 2 ^ 32).
Proof. exact allocated_c_iff. Qed.
Print Assumptions C144_rows_partial.

Example C144_rows_partial_example :
  1000000 < 2 ^ 32 /\ 4000 < 2 ^ 32 /\ true <> false /\ 1000000 * 4000 < 2 ^ 32.
Proof. split; [reflexivity|]. split; [reflexivity|]. split; [discriminate|reflexivity]. Qed.

(** Missing: as above. The same applies to matrices that are stored by column. *)
Theorem C144_columns_partial :
  forall (V : Type) (zero : V) (junk : N -> V) (init : bool) (numRows numCols : N) (v w : V),
  numRows < 2 ^ 32 -> numCols < 2 ^ 32 -> v <> w ->
  (separate (inMatrix numRows numCols) (fun m i => getF m (fst i) (snd i)) (fun m i => setF m (fst i) (snd i))
     (allocateMatrix zero junk numRows numCols init) <-> numRows * numCols < 2 ^ 32).
Proof. exact allocated_f_iff. Qed.
Print Assumptions C144_columns_partial.

Example C144_columns_partial_example :
  4000 < 2 ^ 32 /\ 1000000 < 2 ^ 32 /\ true <> false /\ 4000 * 1000000 < 2 ^ 32.
Proof. split; [reflexivity|]. split; [reflexivity|]. split; [discriminate|reflexivity]. Qed.

(** Missing: as above. All elements are initialized or cleared, if requested. *)
Theorem C144_initialized_partial :
  forall (V : Type) (zero : V) (junk : N -> V) (numRows numCols : N) (m : matrix V), numRows * numCols < 2 ^ 32 ->
  (forall row col, row < numRows -> col < numCols ->
     getC (allocateMatrix zero junk numRows numCols true) row col = Some zero /\
     getF (allocateMatrix zero junk numRows numCols true) row col = Some zero) /\
  (memSize (mxArray m) = numRows * numCols -> mxRows m = numRows -> mxCols m = numCols ->
   exists m', clearMatrix zero m = Some m' /\
   forall row col, row < numRows -> col < numCols -> getC m' row col = Some zero /\ getF m' row col = Some zero).
Proof. exact allocated_initialized. Qed.
Print Assumptions C144_initialized_partial.

Example C144_initialized_partial_example :
  let m := mkMatrix (mkMemory 6 (fun a => a)) 2 3 in
  2 * 3 < 2 ^ 32 /\ memSize (mxArray m) = 2 * 3 /\ mxRows m = 2 /\ mxCols m = 3 /\ getC m 1 1 = Some 4 /\
  (let cleared := clearMatrix 0 m in match cleared with Some m' => getC m' 1 1 = Some 0 | None => False end).
Proof. vm_compute. repeat split; reflexivity. Qed.

(** Missing: as above. The distance between the iterators to the beginning and the end of a row or column. *)
Theorem C144_ranges_partial :
  forall (V : Type) (m : matrix V) (row col : N), mxRows m < 2 ^ 32 -> mxCols m < 2 ^ 32 -> mxRows m * mxCols m < 2 ^ 32 ->
  (row < mxRows m -> rowEnd m row = rowBegin m row + mxCols m) /\
  (col < mxCols m -> columnEnd m col = columnBegin m col + mxRows m).
Proof. exact ranges. Qed.
Print Assumptions C144_ranges_partial.

Example C144_ranges_partial_example :
  let m := mkMatrix (mkMemory 6 (fun a => a)) 2 3 in
  mxRows m < 2 ^ 32 /\ mxCols m < 2 ^ 32 /\ mxRows m * mxCols m < 2 ^ 32 /\ rowBegin m 1 = 3 /\ rowEnd m 1 = 6 /\
  columnBegin m 1 = 2 /\ columnEnd m 1 = 4.
Proof. vm_compute. repeat split; reflexivity. Qed.

(** Missing: as above. The values that are stored in an array, e.g., a NumPy array that provides the feature values of examples,
    are read correctly. *)
Theorem C144_provided_partial :
  forall (V : Type) (numRows numCols : N) (v w : V), numRows < 2 ^ 32 -> numCols < 2 ^ 32 -> v <> w ->
  ((forall (values : N -> N -> V) (m : memory V), storedByRow numRows numCols values m ->
    forall row col, row < numRows -> col < numCols -> getC (mkMatrix m numRows numCols) row col = Some (values row col)) <->
   (numRows - 1) * numCols < 2 ^ 32) /\
  ((forall (values : N -> N -> V) (m : memory V), storedByColumn numRows numCols values m ->
    forall row col, row < numRows -> col < numCols -> getF (mkMatrix m numRows numCols) row col = Some (values row col)) <->
   (numCols - 1) * numRows < 2 ^ 32).
Proof. exact provided_iff. Qed.
Print Assumptions C144_provided_partial.

Example C144_provided_partial_example :
  let values (r c : N) := 10 * r + c in
  let m := mkMemory 6 (fun a => 10 * (a / 3) + a mod 3) in
  2 < 2 ^ 32 /\ 3 < 2 ^ 32 /\ true <> false /\ storedByRow 2 3 values m /\ (2 - 1) * 3 < 2 ^ 32 /\
  getC (mkMatrix m 2 3) 1 2 = Some 12.
Proof.
  cbv zeta. split; [reflexivity|]. split; [reflexivity|]. split; [discriminate|]. split; [|split; reflexivity].
  split; [reflexivity|]. intros r c Hr Hc. cbn [memCells]. rewrite N.div_add_l by lia. rewrite (N.div_small c 3) by exact Hc.
  rewrite N.add_comm, (N.add_comm (r * 3)), N.mod_add by lia. rewrite N.mod_small by exact Hc. lia.
Qed.

(** Missing: 2^16 or more outputs, and matrices with 2^32 or more elements. Two Hessians are stored at the same position only if
    they correspond to the same example and pair of outputs. *)
Theorem C144_hessians_partial :
  forall (V : Type) (zero : V) (junk : N -> V) (numRows numCols : N),
  numCols < 2 ^ 16 -> numRows * (numCols * (numCols + 1) / 2) < 2 ^ 32 ->
  separate (inTriangle numRows numCols) (fun m i => getHessian m (fst i) (fst (snd i)) (snd (snd i)))
    (fun m i => setHessian m (fst i) (fst (snd i)) (snd (snd i))) (allocateHessians zero junk numRows numCols).
Proof. exact allocated_hessians. Qed.
Print Assumptions C144_hessians_partial.

Example C144_hessians_partial_example :
  300 < 2 ^ 16 /\ 90000 * (300 * (300 + 1) / 2) < 2 ^ 32.
Proof. split; reflexivity. Qed.

(** 1,000,000 rows and 5,000 columns. *)
Theorem C144_allocated_refuted :
  exists numRows numCols, numRows < 2 ^ 32 /\ numCols < 2 ^ 32 /\
  forall (junk : N -> bool) init,
  ~ separate (inMatrix numRows numCols) (fun m i => getC m (fst i) (snd i)) (fun m i => setC m (fst i) (snd i))
      (allocateMatrix false junk numRows numCols init).
Proof. exact large_matrix. Qed.
Print Assumptions C144_allocated_refuted.

(** The value of another example is read from a feature matrix with 1,000,000 examples and 5,000 features. *)
Theorem C144_features_refuted :
  exists numRows numCols (values : N -> N -> N) m row col row', numRows < 2 ^ 32 /\ numCols < 2 ^ 32 /\
  storedByRow numRows numCols values m /\ row < numRows /\ col < numCols /\ row' < numRows /\
  values row col = row /\ row <> row' /\ getC (mkMatrix m numRows numCols) row col = Some row'.
Proof. exact large_feature_matrix. Qed.
Print Assumptions C144_features_refuted.

(** 65,536 outputs and a single example: a Hessian is stored outside of the allocated memory. *)
Theorem C144_outputs_refuted :
  exists numRows numCols, numRows < 2 ^ 32 /\ numCols < 2 ^ 32 /\
  forall (zero : bool) (junk : N -> bool), exists i, inTriangle numRows numCols i /\
  getHessian (allocateHessians zero junk numRows numCols) (fst i) (fst (snd i)) (snd (snd i)) = None.
Proof. exact many_outputs. Qed.
Print Assumptions C144_outputs_refuted.

(** 300 outputs and 100,000 examples: two Hessians of different examples share the same memory. *)
Theorem C144_hessians_refuted :
  exists numRows numCols, numRows < 2 ^ 32 /\ numCols < 2 ^ 32 /\
  forall (zero v : bool) (junk : N -> bool), exists i j m', inTriangle numRows numCols i /\ inTriangle numRows numCols j /\ i <> j /\
  setHessian (allocateHessians zero junk numRows numCols) (fst i) (fst (snd i)) (snd (snd i)) v = Some m' /\
  getHessian m' (fst j) (fst (snd j)) (snd (snd j)) = Some v.
Proof. exact many_examples. Qed.
Print Assumptions C144_hessians_refuted.
