(** Properties of the minimum number of examples a rule must cover. *)
From Coq Require Import ZArith Arith List Bool Lia Sorted.
From Verif Require Import Lib.Arr Model.Search Model.Filter Spec.Search Spec.Filter Proofs.FilterFindings
  Model.Floats Model.MinCoverage Spec.Floats Proofs.MinCoverage.
Import ListNotations.
Open Scope Z_scope.

(** ** C142: false; full statement: each rule covers at least [minCoverage] (or all) of the training examples, and at least the
    fraction [minSupport] of them. *)

(** Missing: the minimum may be slightly too small, because values are rounded. The minimum that is used when searching for
    conditions results from both parameters. It is not greater than necessary. *)
Theorem C142_minimum_partial :
  forall n minCoverage f,
  1 <= n < 2 ^ 32 -> 1 <= minCoverage -> isFloat32 f -> f < one ->
  exists m, requiredCoverage n minCoverage (Finite f) = Some m /\ Z.min minCoverage n <= m <= n /\
  f * n * (2 ^ 23 - 1) <= m * one * 2 ^ 23 /\
  (m = Z.min minCoverage n \/ (m - 1) * one * 2 ^ 22 < f * n * (2 ^ 22 + 1)).
Proof. exact required_coverage. Qed.
Print Assumptions C142_minimum_partial.

(** 0.3 and ten examples. *)
Example C142_minimum_partial_example :
  let f := 10066330 * 2 ^ 1050 in
  isFloat32 f /\ 0 < f < one /\ requiredCoverage 10 1 (Finite f) = Some 3 /\ requiredCoverage 10 6 (Finite f) = Some 6 /\
  requiredCoverage 10 20 (Finite f) = Some 10 /\ requiredCoverage 10 2 (Finite 0) = Some 2 /\
  requiredCoverage 10 1 (Finite (2 ^ 1074)) = Some 5.
Proof.
  intros f. split; [exists 10066330, 1050; split; [reflexivity|]; split; [reflexivity|]; split; [lia|reflexivity]|].
  split; [split; reflexivity|]. repeat split; vm_compute; reflexivity.
Qed.

(** Missing: other features and missing values. Rules with nominal, binary and ordinal features. *)
Theorem C142_categorical_partial :
  forall (isEqual : Z -> Z -> bool) (original : nat -> fvec) (cols : nat -> column) (numExamples numFeatures : nat)
    (weight : nat -> bool) (allWeighted : bool) (minCoverage f m : Z) (st : subspace) (conditions : list (nat * test)),
  1 <= Z.of_nat numExamples < 2 ^ 32 -> 1 <= minCoverage -> isFloat32 f -> f < one ->
  (forall i, (i < numFeatures)%nat ->
     represents (cols i) (seq 0 numExamples) (original i) /\ categorical allWeighted (original i)) ->
  (allWeighted = true -> forall i, (i < numExamples)%nat -> weight i = true) ->
  requiredCoverage (Z.of_nat numExamples) minCoverage (Finite f) = Some m ->
  reaches isEqual original numExamples numFeatures weight (found_condition isEqual numExamples weight (Z.to_nat m)) st conditions ->
  conditions <> [] ->
  let covered := Z.of_nat (length (filter weight (coveredBy cols numExamples conditions))) in
  Z.min minCoverage (Z.of_nat numExamples) <= covered /\ f * Z.of_nat numExamples * (2 ^ 23 - 1) <= covered * one * 2 ^ 23.
Proof. exact categorical_support. Qed.
Print Assumptions C142_categorical_partial.

(** Three quarters of four examples. *)
Example C142_categorical_partial_example :
  let cols (i : nat) := someTable [Some 1; Some 0; Some 0; Some 2] in
  let original (i : nat) := NominalVec Nominal [1; 2] [[0]; [3]]%nat 0 [] in
  (forall i, (i < 1)%nat -> represents (cols i) (seq 0 4) (original i) /\ categorical true (original i)) /\
  requiredCoverage 4 1 (Finite (3 * 2 ^ 1073)) = Some 3 /\
  exists st, reaches Z.eqb original 4 1 always (found_condition Z.eqb 4 always 3) st ([] ++ [(0%nat, Neq 1)]).
Proof.
  split; [|split; [vm_compute; reflexivity|]].
  - intros g Hg. split; [|reflexivity]. cbn [represents missingOf]. missings. split; [nominal|nonemptys].
  - eexists. change (Neq 1) with (eTest (mkEval [1; 2; 3]%nat 0 1 true 3 (Neq 1))).
    eapply reaches_filter; [apply reaches_new|vm_compute; reflexivity| |vm_compute; reflexivity].
    unfold found_condition. eexists. split; [vm_compute; reflexivity|]. simpl. auto 10.
Qed.

(** Missing: conditions that cover other examples than those they have been evaluated with. Rules with arbitrary features. *)
Theorem C142_exact_partial :
  forall (isEqual : Z -> Z -> bool) (original : nat -> fvec) (cols : nat -> column) (numExamples numFeatures : nat)
    (weight : nat -> bool) (minCoverage f m : Z) (st : subspace) (conditions : list (nat * test)),
  1 <= Z.of_nat numExamples < 2 ^ 32 -> 1 <= minCoverage -> isFloat32 f -> f < one ->
  (forall i, (i < numFeatures)%nat ->
     represents (cols i) (seq 0 numExamples) (original i) /\ supported_by (cols i) (seq 0 numExamples) (original i)) ->
  requiredCoverage (Z.of_nat numExamples) minCoverage (Finite f) = Some m ->
  reaches isEqual original numExamples numFeatures weight
    (fun s cs i vec e => exact_condition cols numExamples weight s cs i vec e /\
       found_condition isEqual numExamples weight (Z.to_nat m) s cs i vec e) st conditions ->
  conditions <> [] ->
  let covered := Z.of_nat (length (filter weight (coveredBy cols numExamples conditions))) in
  Z.min minCoverage (Z.of_nat numExamples) <= covered /\ f * Z.of_nat numExamples * (2 ^ 23 - 1) <= covered * one * 2 ^ 23.
Proof. exact exact_support. Qed.
Print Assumptions C142_exact_partial.

(** Half of four examples, a numerical feature. *)
Example C142_exact_partial_example :
  let cols (i : nat) := someTable [Some 1; Some 4; Some 6; Some 9] in
  let original (i : nat) := NumericalVec [(0%nat, 1); (1%nat, 4); (2%nat, 6); (3%nat, 9)] 0 false [] in
  (forall i, (i < 1)%nat -> represents (cols i) (seq 0 4) (original i) /\ supported_by (cols i) (seq 0 4) (original i)) /\
  requiredCoverage 4 1 (Finite (2 ^ 1074)) = Some 2 /\
  exists st, reaches Z.eqb original 4 1 always (fun s cs i vec e => exact_condition cols 4 always s cs i vec e /\
       found_condition Z.eqb 4 always 2 s cs i vec e) st ([] ++ [(0%nat, LeqMean 4 6)]).
Proof.
  split; [|split; [vm_compute; reflexivity|]].
  - intros g Hg. split; [|exact I]. cbn [represents missingOf]. missings. split; [vm_compute; repeat constructor; simpl; lia|].
    split; [simpl; repeat constructor; simpl; lia|]. split; [intros x H; vm_compute; simpl in H; tauto|].
    split; [simpl; repeat constructor; lia|]. split.
    + intros j z H. simpl in H. repeat destruct H as [[= <- <-]|H]; try reflexivity. destruct H.
    + intros j H1 H2. vm_compute in H1. simpl in H2. tauto.
  - eexists. change (LeqMean 4 6) with (eTest (mkEval [0; 1]%nat 2 4 true 2 (LeqMean 4 6))).
    eapply reaches_filter; [apply reaches_new|vm_compute; reflexivity| |vm_compute; reflexivity]. split.
    + split; [split; [cbn; lia|cbn; auto]|]. split; [apply exact_b; vm_compute; reflexivity|vm_compute; reflexivity].
    + unfold found_condition. eexists. split; [vm_compute; reflexivity|]. simpl. auto 10.
Qed.

(** The fraction refers to all training examples, although examples with zero weights, e.g., those in a holdout set, do not count as
    covered. If there are too few other examples, no rule is learned. Missing: other features and missing values. *)
Theorem C142_too_few_partial :
  forall (isEqual : Z -> Z -> bool) (original : nat -> fvec) (cols : nat -> column) (numExamples numFeatures : nat)
    (weight : nat -> bool) (allWeighted : bool) (minCoverage f m : Z) (st : subspace) (conditions : list (nat * test)),
  1 <= Z.of_nat numExamples < 2 ^ 32 -> 1 <= minCoverage -> isFloat32 f -> f < one ->
  (forall i, (i < numFeatures)%nat ->
     represents (cols i) (seq 0 numExamples) (original i) /\ categorical allWeighted (original i)) ->
  (allWeighted = true -> forall i, (i < numExamples)%nat -> weight i = true) ->
  requiredCoverage (Z.of_nat numExamples) minCoverage (Finite f) = Some m ->
  Z.of_nat (length (filter weight (seq 0 numExamples))) * one * 2 ^ 23 < f * Z.of_nat numExamples * (2 ^ 23 - 1) ->
  reaches isEqual original numExamples numFeatures weight (found_condition isEqual numExamples weight (Z.to_nat m)) st conditions ->
  conditions = [].
Proof. exact too_few_examples. Qed.
Print Assumptions C142_too_few_partial.

(** One of four examples has a non-zero weight. *)
Example C142_too_few_partial_example :
  let weight i := (i =? 1)%nat in
  let cols (i : nat) := someTable [Some 1; Some 0; Some 0; Some 2] in
  let original (i : nat) := NominalVec Nominal [1; 2] [[0]; [3]]%nat 0 [] in
  let f := 2 ^ 1074 in
  (forall i, (i < 1)%nat -> represents (cols i) (seq 0 4) (original i) /\ categorical false (original i)) /\
  requiredCoverage 4 1 (Finite f) = Some 2 /\
  Z.of_nat (length (filter weight (seq 0 4))) * one * 2 ^ 23 < f * Z.of_nat 4 * (2 ^ 23 - 1) /\
  exists st, reaches Z.eqb original 4 1 weight (found_condition Z.eqb 4 weight 2) st [].
Proof.
  split; [|split; [vm_compute; reflexivity|split; [vm_compute; reflexivity|eexists; apply reaches_new]]].
  intros g Hg. split; [|reflexivity]. cbn [represents missingOf]. missings. split; [nominal|nonemptys].
Qed.

(** Examples with missing values are counted as covered: a rule that is required to cover three quarters of the examples covers a quarter of
    them. *)
Theorem C142_missing_refuted :
  exists original cols numExamples numFeatures f m st conditions,
  1 <= Z.of_nat numExamples < 2 ^ 32 /\ isFloat32 f /\ 0 < f < one /\
  (forall i, (i < numFeatures)%nat -> represents (cols i) (seq 0 numExamples) (original i)) /\
  requiredCoverage (Z.of_nat numExamples) 1 (Finite f) = Some m /\
  reaches Z.eqb original numExamples numFeatures always (found_condition Z.eqb numExamples always (Z.to_nat m)) st conditions /\
  conditions <> [] /\
  3 * (Z.of_nat (length (coveredBy cols numExamples conditions)) * one) <= f * Z.of_nat numExamples.
Proof. exact missing_support. Qed.
Print Assumptions C142_missing_refuted.

(** 0.33333334 of three examples. *)
Theorem C142_rounded_refuted :
  exists n f m, 1 <= n < 2 ^ 32 /\ isFloat32 f /\ 0 < f < one /\ requiredCoverage n 1 (Finite f) = Some m /\ m * one < f * n.
Proof. exact rounded_support. Qed.
Print Assumptions C142_rounded_refuted.
