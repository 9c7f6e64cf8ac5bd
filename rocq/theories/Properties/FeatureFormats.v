(** Properties of rules that are learned from dense and sparse feature matrices. *)
From Coq Require Import ZArith Arith List Bool Permutation Lia.
From Verif Require Import Lib.Arr Model.Search Model.Filter Spec.Search Spec.Filter Model.FeatureTypes Proofs.SearchFindings
  Proofs.FeatureTypes Spec.FeatureTypes Spec.FeatureFormats Proofs.FeatureFormats Proofs.FormatFindings.
Import ListNotations.
Open Scope nat_scope.

(** ** C143: false; full statement: the rules that can be learned do not depend on whether the feature matrix is dense or
    sparse. *)

(** Missing: numerical features, missing values, ordinal features if weights are zero, several conditions that use the same
    nominal feature. For each rule that can be learned from one representation, a rule that covers the same training
    examples can be learned from the other one. The conditions are the same, except for the thresholds of ordinal features.
    [created] applies to dense and sparse matrices, as well as to arbitrary orders in which hash maps are iterated. *)
Theorem C143_categorical_partial :
  forall (copies : bool) (isEqual : Z -> Z -> bool) (ordinal : nat -> bool) (values : nat -> list value32) (sparseValue : Z)
    (elements : nat -> list element) (original1 original2 : nat -> fvec) (numExamples numFeatures minCoverage : nat)
    (weight : nat -> bool) (st1 : subspace) (conditions1 : list (nat * test)),
  fitsInt32 sparseValue -> 1 <= minCoverage ->
  (forall f, f < numFeatures -> feature numExamples (values f) sparseValue (elements f) /\
     created (ordinal f) (values f) sparseValue (elements f) (original1 f) /\
     created (ordinal f) (values f) sparseValue (elements f) (original2 f)) ->
  (forall f i, f < numFeatures -> ordinal f = true -> i < numExamples -> weight i = true) ->
  learns copies isEqual original1 numExamples numFeatures weight minCoverage st1 conditions1 ->
  NoDup (filter (fun f => negb (ordinal f)) (map fst conditions1)) ->
  exists st2 conditions2,
    learns copies isEqual original2 numExamples numFeatures weight minCoverage st2 conditions2 /\
    Forall2 (similar ordinal) conditions1 conditions2 /\
    forall i, i < numExamples ->
      satisfies (fun f => truncated (denseColumn (values f))) conditions2 i =
      satisfies (fun f => truncated (denseColumn (values f))) conditions1 i.
Proof. exact formats_equivalent. Qed.
Print Assumptions C143_categorical_partial.

(** An ordinal feature with values 0, 3, 3, 5 and a binary one with values 1, 0, 0, 1. *)
Example C143_categorical_partial_example :
  let values (f : nat) := if f =? 0 then map integer [0; 3; 3; 5]%Z else map integer [1; 0; 0; 1]%Z in
  let elements (f : nat) := if f =? 0 then [(1, integer 3); (2, integer 3); (3, integer 5)] else [(0, integer 1); (3, integer 1)] in
  let ordinal (f : nat) := f =? 0 in
  let dense (f : nat) := if f =? 0 then NominalVec Ordinal [0; 5]%Z [[0]; [3]] 3 [] else NominalVec Binary [1%Z] [[0; 3]] 0 [] in
  let sparse (f : nat) := if f =? 0 then NominalVec Ordinal [3; 5]%Z [[2; 1]; [3]] 0 [] else NominalVec Binary [1%Z] [[0; 3]] 0 [] in
  fitsInt32 0 /\
  (forall f, f < 2 -> feature 4 (values f) 0 (elements f) /\ created (ordinal f) (values f) 0 (elements f) (dense f) /\
     created (ordinal f) (values f) 0 (elements f) (sparse f)) /\
  (exists st, learns true Z.eqb dense 4 2 always 1 st [(1, Eq 1%Z); (0, Gr 3%Z)]) /\
  NoDup (filter (fun f => negb (ordinal f)) (map fst [(1, Eq 1%Z); (0, Gr 3%Z)])).
Proof.
  intros values elements ordinal dense sparse. split; [exact fits0|]. split; [|split].
  - intros f Hf. destruct f as [|[|f]]; [| |lia]; (split; [isFeature|]; split; [fromDense|fromSparse]).
  - eexists. change [(1, Eq 1%Z); (0, Gr 3%Z)] with (([] ++ [(1, eTest (mkEval [0; 3] 0 1 false 2 (Eq 1)))]) ++ [(0, eTest (mkEval [3] 1 2 false 1 (Gr 3)))]).
    eapply learns_filter; [apply learns_copy; [eapply learns_filter; [apply learns_new|vm_compute; reflexivity| |vm_compute; reflexivity]|reflexivity]|vm_compute; reflexivity| |vm_compute; reflexivity].
    + split; [|vm_compute; lia]. eexists. eexists. split; [reflexivity|]. split; [reflexivity|]. vm_compute. tauto.
    + split; [|vm_compute; lia]. eexists. split; [vm_compute; reflexivity|]. cbn. tauto.
  - cbn. constructor; [intros []|constructor].
Qed.

(** Two conditions that use the same nominal feature can be learned from the dense matrix, but not from the sparse one. *)
Theorem C143_nominal_refuted :
  exists values elements dense sparse numExamples conditions,
    feature numExamples values 0 elements /\
    created false values 0 elements (dense 0) /\ created false values 0 elements (sparse 0) /\
    (exists st, learns false Z.eqb dense numExamples 1 always 1 st conditions) /\
    forall st, ~ learns false Z.eqb sparse numExamples 1 always 1 st conditions.
Proof. exact nominal_conditions_lost. Qed.
Print Assumptions C143_nominal_refuted.

(** A threshold of an ordinal feature that can be learned from the dense matrix cannot be learned from the sparse one. *)
Theorem C143_ordinal_refuted :
  exists values elements dense sparse numExamples numFeatures conditions,
    (forall f, f < numFeatures -> feature numExamples (values f) 0 (elements f) /\
       created true (values f) 0 (elements f) (dense f) /\ created true (values f) 0 (elements f) (sparse f)) /\
    NoDup (map fst conditions) /\
    (exists st, learns false Z.eqb dense numExamples numFeatures always 1 st conditions) /\
    forall copies st, ~ learns copies Z.eqb sparse numExamples numFeatures always 1 st conditions.
Proof. exact ordinal_thresholds_differ. Qed.
Print Assumptions C143_ordinal_refuted.

(** A condition that uses a numerical feature and can be learned from the sparse matrix selects other training examples than
    each condition that can be learned from the dense one. *)
Theorem C143_numerical_refuted :
  exists sort values elements dense sparse numExamples c1,
    sortsPairs sort /\ length values = numExamples /\ wellFormed numExamples elements /\ same_values values 0 elements /\
    createNumericalDense Z.eqb sort values = Some (dense 0) /\
    createNumericalSparse Z.eqb sort numExamples 0 elements = Some (sparse 0) /\
    (exists st, learns false Z.eqb sparse numExamples 1 always 1 st [c1]) /\
    forall copies st c2, learns copies Z.eqb dense numExamples 1 always 1 st [c2] ->
      exists i, i < numExamples /\
        satisfies (fun _ => denseColumn values) [c2] i <> satisfies (fun _ => denseColumn values) [c1] i.
Proof. exact numerical_conditions_differ. Qed.
Print Assumptions C143_numerical_refuted.
