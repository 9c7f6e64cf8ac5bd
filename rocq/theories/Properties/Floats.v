(** Properties of computations with single precision. *)
From Coq Require Import ZArith Lia Bool.
From Verif Require Import Model.Floats Spec.Floats.
From Verif Require Import Proofs.Floats Proofs.FloatFractions.
Open Scope Z_scope.

(** ** C35: Thresholds separate neighbouring values
    Missing: the difference of the values must be finite and they must not be considered to be equal. The former is not ensured
    by the code, the latter is if both values are stored explicitly, but not if one of them is the sparse value. *)
(** Values that are not considered to be equal. *)
Theorem C35_separates_partial : forall a b,
  isFloat32 a -> isFloat32 b -> a < b -> isEqual (Finite a) (Finite b) = false -> differenceIsFinite a b ->
  separates (arithmeticMean (Finite a) (Finite b)) a b.
Proof. exact mean_separates. Qed.
Print Assumptions C35_separates_partial.

(* 1 and 1.000000238, the second next value *)
Example C35_separates_partial_example :
  let a := one in let b := one + 2 ^ 1053 in
  isFloat32 a /\ isFloat32 b /\ a < b /\ isEqual (Finite a) (Finite b) = false /\ differenceIsFinite a b /\
  arithmeticMean (Finite a) (Finite b) = Finite (one + 2 ^ 1052).
Proof.
  intros a b. split; [exists 1, 1075; split; [reflexivity|]; split; [reflexivity|]; split; [lia|reflexivity]|].
  split; [exists (2 ^ 22 + 1), 1053; split; [reflexivity|]; split; [reflexivity|]; split; [lia|reflexivity]|].
  split; [reflexivity|]. split; [vm_compute; reflexivity|]. split; [exists (2 ^ 1053); vm_compute; reflexivity|].
  vm_compute. reflexivity.
Qed.

(** Without any check for equality, the threshold lies between the values, i.e., the smaller value always satisfies [<=], but the
    larger value is possibly equal to the threshold. *)
Theorem C35_between_partial : forall a b,
  isFloat32 a -> isFloat32 b -> a < b -> differenceIsFinite a b ->
  leqb (Finite a) (arithmeticMean (Finite a) (Finite b)) = true /\
  leqb (arithmeticMean (Finite a) (Finite b)) (Finite b) = true.
Proof. exact mean_between. Qed.
Print Assumptions C35_between_partial.

(* the largest value that is less than one, and one *)
Example C35_between_partial_example :
  let a := one - 2 ^ 1051 in let b := one in
  isFloat32 a /\ isFloat32 b /\ a < b /\ differenceIsFinite a b /\ arithmeticMean (Finite a) (Finite b) = Finite b.
Proof.
  intros a b. split; [exists (2 ^ 24 - 1), 1051; split; [reflexivity|]; split; [reflexivity|]; split; [lia|reflexivity]|].
  split; [exists 1, 1075; split; [reflexivity|]; split; [reflexivity|]; split; [lia|reflexivity]|].
  split; [reflexivity|]. split; [exists (2 ^ 1051); vm_compute; reflexivity|]. vm_compute. reflexivity.
Qed.

(** The sparse value zero and a positive value. *)
Theorem C35_sparse_value_positive_partial : forall b,
  isFloat32 b -> 0 < b -> separates (arithmeticMean (Finite 0) (Finite b)) 0 b.
Proof. exact mean_separates_zero_positive. Qed.
Print Assumptions C35_sparse_value_positive_partial.

Example C35_sparse_value_positive_partial_example :
  isFloat32 (least32) /\ 0 < least32 /\ arithmeticMean (Finite 0) (Finite least32) = Finite 0.
Proof.
  split; [exists 1, 926; split; [reflexivity|]; split; [reflexivity|]; split; [lia|reflexivity]|].
  split; [reflexivity|]. vm_compute. reflexivity.
Qed.

(** A negative value and the sparse value zero. There is exactly one value that cannot be separated. *)
Theorem C35_sparse_value_negative_partial : forall a,
  isFloat32 a -> a < 0 -> (separates (arithmeticMean (Finite a) (Finite 0)) a 0 <-> a <> - least32).
Proof. exact mean_separates_zero_negative. Qed.
Print Assumptions C35_sparse_value_negative_partial.

Example C35_sparse_value_negative_partial_example :
  isFloat32 (- 2 ^ 927) /\ - 2 ^ 927 < 0 /\ - 2 ^ 927 <> - least32.
Proof.
  split; [exists (-1), 927; split; [reflexivity|]; split; [reflexivity|]; split; [lia|reflexivity]|].
  split; [reflexivity|]. vm_compute. discriminate.
Qed.

(** The check for equality does not depend on the order of the values. *)
Theorem C35_order_of_arguments_partial : forall a b,
  differenceIsFinite a b -> isEqual (Finite a) (Finite b) = isEqual (Finite b) (Finite a).
Proof. exact isEqual_symmetric. Qed.
Print Assumptions C35_order_of_arguments_partial.

Example C35_order_of_arguments_partial_example : differenceIsFinite 0 (one).
Proof. exists (one). vm_compute. reflexivity. Qed.

(** The values -2.98e38 and 2.98e38. The threshold is infinite. *)
Theorem C35_overflow_refuted : exists a b, isFloat32 a /\ isFloat32 b /\ a < b /\ isEqual (Finite a) (Finite b) = false /\
  arithmeticMean (Finite a) (Finite b) = Infinite false /\ ~ separates (arithmeticMean (Finite a) (Finite b)) a b.
Proof. exact mean_overflow. Qed.
Print Assumptions C35_overflow_refuted.

(** The negative value that is closest to zero, and zero. *)
Theorem C35_neighbours_refuted : exists a b, isFloat32 a /\ isFloat32 b /\ a < b /\ differenceIsFinite a b /\
  arithmeticMean (Finite a) (Finite b) = Finite b /\ ~ separates (arithmeticMean (Finite a) (Finite b)) a b.
Proof. exact mean_neighbours. Qed.
Print Assumptions C35_neighbours_refuted.

(** ** C107: Sizes computed from fractions *)
(** No undefined behaviour, and all bounds are respected. Fractions are less than one. *)
Theorem C107_range : forall n f minimum maximum,
  1 <= n < 2 ^ 32 -> isFloat32 f -> 0 < f < one -> 1 <= minimum -> 0 <= maximum ->
  maximum = 0 \/ minimum <= maximum ->
  exists r, calculateBoundedFraction n (Finite f) minimum maximum = Some r /\ Z.min minimum n <= r <= n /\
  (maximum <> 0 -> r <= maximum).
Proof. exact bounded_fraction_range. Qed.
Print Assumptions C107_range.

(* 0.1, ten examples *)
Example C107_range_example :
  let f := 13421773 * 2 ^ 1048 in
  isFloat32 f /\ 0 < f < one /\ calculateBoundedFraction 10 (Finite f) 1 0 = Some 1 /\
  calculateBoundedFraction 10 (Finite f) 5 7 = Some 5.
Proof.
  intros f. split; [exists 13421773, 1048; split; [reflexivity|]; split; [reflexivity|]; split; [lia|reflexivity]|].
  split; [split; reflexivity|]. split; vm_compute; reflexivity.
Qed.

(** The error is less than one. Missing: more than 2^24 elements. *)
Theorem C107_accuracy_partial : forall n f,
  1 <= n <= 2 ^ 24 -> isFloat32 f -> 0 < f <= one ->
  exists r, calculateBoundedFraction n (Finite f) 1 0 = Some r /\ 1 <= r <= n /\ Z.abs (r * one - f * n) < one.
Proof. exact bounded_fraction_accuracy. Qed.
Print Assumptions C107_accuracy_partial.

Example C107_accuracy_partial_example :
  let f := 11072963 * 2 ^ 1050 in
  isFloat32 f /\ 0 < f <= one /\ calculateBoundedFraction 1000 (Finite f) 1 0 = Some 330.
Proof.
  intros f. split; [exists 11072963, 1050; split; [reflexivity|]; split; [reflexivity|]; split; [lia|reflexivity]|].
  split; [split; [reflexivity|vm_compute; discriminate]|]. vm_compute. reflexivity.
Qed.

(** Half of 2147483775 elements. *)
Theorem C107_accuracy_refuted : exists n f r, 1 <= n < 2 ^ 32 /\ isFloat32 f /\ 0 < f < one /\ calculateBoundedFraction n (Finite f) 1 0 = Some r /\
  63 * one < Z.abs (r * one - f * n).
Proof. exact bounded_fraction_inaccurate. Qed.
Print Assumptions C107_accuracy_refuted.

(** All of 16777219 elements. *)
Theorem C107_all_elements_refuted : exists n, 1 <= n < 2 ^ 32 /\ calculateBoundedFraction n (Finite one) 1 0 = Some (n + 1).
Proof. exact full_fraction_exceeds. Qed.
Print Assumptions C107_all_elements_refuted.

(** All of 4294967295 elements. *)
Theorem C107_undefined_refuted : exists n, 1 <= n < 2 ^ 32 /\ calculateBoundedFraction n (Finite one) 1 0 = None.
Proof. exact full_fraction_undefined. Qed.
Print Assumptions C107_undefined_refuted.

(** ** C108: Sizes of holdout sets *)
(** At least one example remains for training. *)
Theorem C108_training_set : forall n f,
  1 <= n < 2 ^ 32 -> isFloat32 f -> 0 < f < one ->
  exists numTraining numHoldout, holdoutSizes (Finite f) n = Some (numTraining, numHoldout) /\
  1 <= numTraining /\ 0 <= numHoldout /\ numTraining + numHoldout = n.
Proof. exact holdout_sizes. Qed.
Print Assumptions C108_training_set.

Example C108_training_set_example :
  let f := (2 ^ 24 - 1) * 2 ^ 1051 in
  isFloat32 f /\ 0 < f < one /\ holdoutSizes (Finite f) (2 ^ 31 + 129) = Some (129, 2147483648).
Proof.
  intros f. split; [exists (2 ^ 24 - 1), 1051; split; [reflexivity|]; split; [reflexivity|]; split; [lia|reflexivity]|].
  split; [split; reflexivity|]. vm_compute. reflexivity.
Qed.

(** At least one example is used for validation. Missing: products of less than one, more than 2^24 examples. *)
Theorem C108_holdout_set_partial : forall n f,
  1 <= n <= 2 ^ 24 -> isFloat32 f -> 0 < f < one -> one <= f * n ->
  exists numTraining numHoldout, holdoutSizes (Finite f) n = Some (numTraining, numHoldout) /\
  1 <= numTraining /\ 1 <= numHoldout.
Proof. exact holdout_not_empty. Qed.
Print Assumptions C108_holdout_set_partial.

Example C108_holdout_set_partial_example :
  let f := 11072963 * 2 ^ 1050 in
  isFloat32 f /\ 0 < f < one /\ one <= f * 4 /\ holdoutSizes (Finite f) 4 = Some (3, 1).
Proof.
  intros f. split; [exists 11072963, 1050; split; [reflexivity|]; split; [reflexivity|]; split; [lia|reflexivity]|].
  split; [split; reflexivity|]. split; [vm_compute; discriminate|]. vm_compute. reflexivity.
Qed.

(** The default size and three examples. *)
Theorem C108_holdout_set_refuted : exists n f numTraining, 1 <= n < 2 ^ 32 /\ isFloat32 f /\ 0 < f < one /\
  holdoutSizes (Finite f) n = Some (numTraining, 0).
Proof. exact holdout_empty. Qed.
Print Assumptions C108_holdout_set_refuted.
