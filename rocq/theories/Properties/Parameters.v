(** Properties of parameters. *)
From Coq Require Import ZArith Bool List Lia.
From Verif Require Import Model.Floats Model.Parameters Spec.Floats Spec.Parameters Proofs.Parameters.
Import ListNotations.
Open Scope Z_scope.

(** ** C121: Minima and maxima are respected
    Missing: calls that increase the minimum after the maximum has been set, and default sample sizes of features. *)

(** Whatever methods are called, and even if some calls fail, minima and fractions are in the documented ranges. *)
Theorem C121_values_partial : forall k calls, Forall representable calls ->
  let s := applyCalls k (initialSizes k) calls in
  documentedMin k <= sMin s /\ 0 <= sMax s /\
  (k <> FixedHead -> k <> WithReplacement -> inRange (documented (ratioParameter k)) (sRatio s)).
Proof. exact sizes_values. Qed.
Print Assumptions C121_values_partial.

(* The second call and the last call fail. *)
Example C121_values_partial_example :
  let calls := [SetMin 5; SetMax 4; SetRatio (Finite (2 ^ 1074)); SetRatio NaN] in
  let s := applyCalls FeatureBinning (initialSizes FeatureBinning) calls in
  Forall representable calls /\ sMin s = 5 /\ sMax s = 0 /\ sRatio s = Finite (2 ^ 1074).
Proof.
  intros calls s. split; [|repeat split; reflexivity].
  repeat constructor; try discriminate. exists 1, 1074. repeat split; reflexivity || lia.
Qed.

(** A call that succeeds changes a single value, a call that fails does not have an effect. *)
Theorem C121_effects_partial : forall k calls c,
  let s := applyCalls k (initialSizes k) calls in
  let s' := applyCalls k (initialSizes k) (calls ++ [c]) in
  (acceptsCall k s c = false -> s' = s) /\
  (acceptsCall k s c = true ->
   match c with
   | SetRatio x => sRatio s' = x /\ sMin s' = sMin s /\ sMax s' = sMax s
   | SetMin n => sRatio s' = sRatio s /\ sMin s' = n /\ sMax s' = sMax s
   | SetMax n => sRatio s' = sRatio s /\ sMin s' = sMin s /\ sMax s' = n
   end).
Proof. exact calls_effects. Qed.
Print Assumptions C121_effects_partial.

(* The first call succeeds, the second one fails. *)
Example C121_effects_partial_example :
  let s := applyCalls LabelBinning (initialSizes LabelBinning) [SetMin 3] in
  sMin s = 3 /\ acceptsCall LabelBinning s (SetMax 2) = false /\ acceptsCall LabelBinning s (SetMax 3) = true.
Proof. repeat split; reflexivity. Qed.

(** The minimum is respected, unless fewer elements are available, and there is no undefined behaviour. *)
Theorem C121_minimum_partial : forall k fallback calls n f, Forall representable calls -> 1 <= n < 2 ^ 32 ->
  let s := applyCalls k (initialSizes k) calls in
  usesFraction k fallback s f ->
  exists r, numElements k fallback s n = Some r /\ Z.min (sMin s) n <= r <= n.
Proof. exact sizes_minimum. Qed.
Print Assumptions C121_minimum_partial.

(* 20 of 25 examples, 25 of 25 examples *)
Example C121_minimum_partial_example :
  let f := 11072963 * 2 ^ 1051 in
  let s := applyCalls Stratified (initialSizes Stratified) [SetMin 20] in
  let s' := applyCalls Stratified (initialSizes Stratified) [SetMin 40] in
  usesFraction Stratified NaN s f /\ numElements Stratified NaN s 25 = Some 20 /\ numElements Stratified NaN s' 25 = Some 25.
Proof.
  intros f s s'. split; [|split; vm_compute; reflexivity]. split; [exists 11072963, 1051; repeat split; reflexivity || lia|].
  split; [split; reflexivity|left; reflexivity].
Qed.

(** The maximum is respected if it has been set after the minimum. *)
Theorem C121_maximum_set_last_partial : forall k fallback before m after n f,
  let calls := before ++ SetMax m :: after in
  let s := applyCalls k (initialSizes k) calls in
  Forall representable calls -> acceptsCall k (applyCalls k (initialSizes k) before) (SetMax m) = true ->
  Forall (fun c => ~ setsMin c) after -> 1 <= n < 2 ^ 32 -> usesFraction k fallback s f ->
  exists r, numElements k fallback s n = Some r /\ Z.min (sMin s) n <= r <= n /\ (sMax s <> 0 -> r <= sMax s).
Proof. exact sizes_after_max. Qed.
Print Assumptions C121_maximum_set_last_partial.

(* Without the maximum, 660 of 1000 examples would be used. *)
Example C121_maximum_set_last_partial_example :
  let f := 11072963 * 2 ^ 1051 in
  let s := applyCalls WithReplacement (initialSizes WithReplacement) ([SetMin 20] ++ SetMax 30 :: []) in
  acceptsCall WithReplacement (applyCalls WithReplacement (initialSizes WithReplacement) [SetMin 20]) (SetMax 30) = true /\
  usesFraction WithReplacement NaN s f /\ numElements WithReplacement NaN s 1000 = Some 30.
Proof.
  intros f s. split; [reflexivity|]. split; [|vm_compute; reflexivity].
  split; [exists 11072963, 1051; repeat split; reflexivity || lia|]. split; [split; reflexivity|left; reflexivity].
Qed.

(** The maximum is respected if the minimum is not set. *)
Theorem C121_minimum_not_set_partial : forall k fallback calls n f,
  let s := applyCalls k (initialSizes k) calls in
  Forall representable calls -> Forall (fun c => ~ setsMin c) calls -> 1 <= n < 2 ^ 32 -> usesFraction k fallback s f ->
  exists r, numElements k fallback s n = Some r /\ Z.min (sMin s) n <= r <= n /\ (sMax s <> 0 -> r <= sMax s).
Proof. exact sizes_without_min. Qed.
Print Assumptions C121_minimum_not_set_partial.

(* Heads with an automatically determined fraction, 50 outputs *)
Example C121_minimum_not_set_partial_example :
  let f := 11072963 * 2 ^ 1050 in
  let s := applyCalls FixedHead (initialSizes FixedHead) [SetMax 1; SetMax 4] in
  usesFraction FixedHead (Finite f) s f /\ sMax s = 4 /\ numElements FixedHead (Finite f) s 50 = Some 4.
Proof.
  intros f s. split; [|split; [reflexivity|vm_compute; reflexivity]].
  split; [exists 11072963, 1050; repeat split; reflexivity || lia|]. split; [split; reflexivity|].
  right. repeat split; reflexivity.
Qed.

(** False in general: if the maximum is set before a greater minimum, all calls succeed, but the maximum is silently ignored. *)
Theorem C121_order_refuted : exists calls r, let s := applyCalls WithoutReplacement (initialSizes WithoutReplacement) calls in
  Forall representable calls /\ allAccepted WithoutReplacement (initialSizes WithoutReplacement) calls /\
  numElements WithoutReplacement NaN s 1000 = Some r /\ sMax s <> 0 /\ sMax s < r.
Proof. exact sizes_order_counterexample. Qed.
Print Assumptions C121_order_refuted.

(** Maxima do not have any effect if the default sample size of features is used. *)
Theorem C121_default_maximum_refuted : exists calls r, let s := applyCalls FeatureSampling (initialSizes FeatureSampling) calls in
  Forall representable calls /\ allAccepted FeatureSampling (initialSizes FeatureSampling) calls /\
  numElements FeatureSampling NaN s 100 = Some r /\ sMax s <> 0 /\ sMax s < r.
Proof. exact sizes_default_counterexample. Qed.
Print Assumptions C121_default_maximum_refuted.

(** Neither have minima. *)
Theorem C121_default_minimum_refuted : exists calls r, let s := applyCalls FeatureSampling (initialSizes FeatureSampling) calls in
  Forall representable calls /\ allAccepted FeatureSampling (initialSizes FeatureSampling) calls /\
  numElements FeatureSampling NaN s 100 = Some r /\ sMin s <= 100 /\ r < sMin s.
Proof. exact sizes_default_minimum_counterexample. Qed.
Print Assumptions C121_default_minimum_refuted.

(** ** C122: Values of parameters are accepted if and only if they are in the documented range
    Missing: values that are not a number, and three parameters, for which the range of accepted values is given below. *)

(** Floating point values, including infinite ones. *)
Theorem C122_floats_partial : forall p x, p <> MinSupport -> p <> OutputRatio -> p <> InstancesWithReplacement -> x <> NaN ->
  accepts p x = true <-> inRange (documented p) x.
Proof. exact accepts_documented. Qed.
Print Assumptions C122_floats_partial.

Example C122_floats_partial_example :
  accepts Shrinkage (Finite (2 ^ 1074)) = true /\ accepts Shrinkage (Finite (2 ^ 1075)) = false /\
  accepts HeadExponent (Infinite false) = true /\ accepts FeatureSampleSize (Finite 0) = true.
Proof. repeat split; reflexivity. Qed.

(** Integers. *)
Theorem C122_integers_partial : forall p n, 0 <= n -> acceptsInt p n = true <-> documentedInt p n.
Proof. exact accepts_integers. Qed.
Print Assumptions C122_integers_partial.

Example C122_integers_partial_example :
  acceptsInt BeamMaxConditions 0 = true /\ acceptsInt BeamMaxConditions 1 = false /\ acceptsInt BeamMaxConditions 2 = true.
Proof. repeat split; reflexivity. Qed.

(** The minimum support of rules and the fraction of outputs in heads, single precision values. *)
Theorem C122_near_zero_partial : forall p z, p = MinSupport \/ p = OutputRatio -> isFloat32 z ->
  accepts p (Finite z) = true <-> - 2 ^ 1052 <= z < one.
Proof. exact accepts_near_zero. Qed.
Print Assumptions C122_near_zero_partial.

Example C122_near_zero_partial_example :
  isFloat32 (- 2 ^ 1052) /\ accepts MinSupport (Finite (- 2 ^ 1052)) = true /\ accepts MinSupport (Finite (- 2 ^ 1053)) = false.
Proof. split; [exists (-1), 1052; repeat split; reflexivity || lia|]. split; vm_compute; reflexivity. Qed.

(** The parameters for which values that are not a number are accepted. *)
Theorem C122_nan_partial : forall p, accepts p NaN = true <->
  p = MinImprovement \/ p = HeadExponent \/ p = Beta \/ p = MEstimateM \/ p = PeakMaxLift \/ p = CoverageThreshold.
Proof. exact accepts_nan. Qed.
Print Assumptions C122_nan_partial.

Example C122_nan_partial_example : accepts Beta NaN = true /\ accepts KlnK NaN = false.
Proof. split; reflexivity. Qed.

(** False in general: values that are not a number are accepted. *)
Theorem C122_nan_refuted : exists p, accepts p NaN = true /\ ~ inRange (documented p) NaN.
Proof. exact accepts_not_a_number. Qed.
Print Assumptions C122_nan_refuted.

(** Infinity is accepted as the minimum support of rules, because it is considered to be equal to zero. The computation of the minimum number of examples is then undefined. *)
Theorem C122_infinite_refuted : exists p, accepts p (Infinite false) = true /\ ~ inRange (documented p) (Infinite false) /\
  forall n minimum maximum, 1 <= n < 2 ^ 32 -> calculateBoundedFraction n (Infinite false) minimum maximum = None.
Proof. exact accepts_infinite. Qed.
Print Assumptions C122_infinite_refuted.

(** A minimum support of one is documented, but rejected. *)
Theorem C122_one_rejected_refuted : exists p, inRange (documented p) (Finite one) /\ accepts p (Finite one) = false.
Proof. exact rejects_one. Qed.
Print Assumptions C122_one_rejected_refuted.

(** When sampling with replacement, a sample size of one is not documented, but accepted. *)
Theorem C122_one_accepted_refuted : exists p, ~ inRange (documented p) (Finite one) /\ accepts p (Finite one) = true.
Proof. exact accepts_one. Qed.
Print Assumptions C122_one_accepted_refuted.
