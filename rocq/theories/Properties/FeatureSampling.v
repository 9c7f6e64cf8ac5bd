(** Properties of the number of features that are sampled. *)
From Coq Require Import NArith ZArith QArith Qround Arith List Bool Lia.
From Verif Require Import Lib.Arr Model.Rng Model.Sampling Model.FeatureSampling Spec.FeatureSampling Proofs.FeatureSampling.
Import ListNotations.
Open Scope nat_scope.

(** ** C138: false; full statement: for all configurations, the number of sampled features is the fraction that has been specified,
    or log2(A - 1) + 1 rounded down if none has been specified, it is between the minimum and the maximum, and each sample
    consists of as many distinct features, in addition to those that are retained. *)

(** Missing: samples whose size is not specified. The fraction is rounded up. *)
Theorem C138_fraction_partial : forall (c : featureSamplingConfig) (numFeatures : nat),
    (0 < fSampleSize c)%Q -> (fSampleSize c <= 1)%Q -> 1 <= fMinSamples c ->
    fMaxSamples c = 0 \/ fMinSamples c <= fMaxSamples c ->
    exists k r, createFeatureSamplingFactory c numFeatures = Some (k, r) /\ r = Nat.min (fNumRetained c) numFeatures /\
      k + r <= numFeatures /\
      Nat.min (fMinSamples c) (numFeatures - r) <= k /\ (fMaxSamples c <> 0 -> k <= fMaxSamples c) /\
      (Nat.min (fMinSamples c) (numFeatures - r) < k -> fMaxSamples c = 0 \/ k < fMaxSamples c ->
       (inject_Z (Z.of_nat k - 1) < fSampleSize c * inject_Z (Z.of_nat (numFeatures - r)) <= inject_Z (Z.of_nat k))%Q).
Proof. exact fraction_samples. Qed.
Print Assumptions C138_fraction_partial.

Example C138_fraction_partial_example :
  createFeatureSamplingFactory (mkFeatures (1 # 3) 2 0 1) 12 = Some (4, 1) /\
  createFeatureSamplingFactory (mkFeatures (1 # 3) 2 3 1) 12 = Some (3, 1) /\
  createFeatureSamplingFactory (mkFeatures (1 # 3) 7 0 1) 12 = Some (7, 1).
Proof. repeat split; reflexivity. Qed.

(** Missing: less than two features that are not retained, and the minimum and maximum. The size is not specified. *)
Theorem C138_logarithmic_partial : forall (c : featureSamplingConfig) (numFeatures : nat),
    (fSampleSize c == 0)%Q -> fNumRetained c + 2 <= numFeatures ->
    exists k, createFeatureSamplingFactory c numFeatures = Some (k, fNumRetained c) /\
      1 <= k /\ k + fNumRetained c < numFeatures /\ 2 ^ (k - 1) <= numFeatures - fNumRetained c - 1 < 2 ^ k.
Proof. exact logarithmic_samples. Qed.
Print Assumptions C138_logarithmic_partial.

Example C138_logarithmic_partial_example :
  createFeatureSamplingFactory defaultFeatures 2 = Some (1, 0) /\ createFeatureSamplingFactory defaultFeatures 17 = Some (5, 0) /\
  createFeatureSamplingFactory defaultFeatures 16 = Some (4, 0) /\ createFeatureSamplingFactory (mkFeatures 0 1 0 4) 20 = Some (4, 4).
Proof. repeat split; reflexivity. Qed.

(** Missing: less than two features that are not retained, unless the size is specified. All samples that are drawn from all seeds. *)
Theorem C138_valid_partial : forall (fuel : nat) (c : featureSamplingConfig) (numFeatures calls : nat) (s : N),
    (2 ^ 32 <= N.of_nat fuel)%N -> (1 <= s < 2 ^ 32)%N -> (N.of_nat numFeatures < 2 ^ 32)%N ->
    (0 <= fSampleSize c)%Q -> (fSampleSize c <= 1)%Q -> 1 <= fMinSamples c ->
    fMaxSamples c = 0 \/ fMinSamples c <= fMaxSamples c ->
    (0 < fSampleSize c)%Q \/ fNumRetained c + 2 <= numFeatures ->
    exists k r samples, createFeatureSamplingFactory c numFeatures = Some (k, r) /\
      featureSamples fuel c numFeatures calls s = Some samples /\ length samples = calls /\
      Forall (valid_sample numFeatures k r) samples.
Proof. exact valid_samples. Qed.
Print Assumptions C138_valid_partial.

Example C138_valid_partial_example :
  featureSamples 0 (mkFeatures 0 1 0 2) 6 3 1 = Some [[4; 5; 1; 2]; [4; 5; 1; 3]; [4; 5; 1; 2]] /\
  createFeatureSamplingFactory (mkFeatures 0 1 0 2) 6 = Some (2, 2).
Proof. split; vm_compute; reflexivity. Qed.

(** With default values, the number of samples is undefined (the logarithm of zero) if there is a single feature. *)
Theorem C138_single_feature_refuted : exists (numFeatures : nat), numFeatures = 1 /\ forall fuel calls s,
    createFeatureSamplingFactory defaultFeatures numFeatures = None /\
    featureSamples fuel defaultFeatures numFeatures calls s = None.
Proof. exact single_feature. Qed.
Print Assumptions C138_single_feature_refuted.

(** The same holds whenever all but one feature are retained. *)
Theorem C138_single_remaining_refuted : forall (c : featureSamplingConfig) (fuel calls : nat) (s : N),
    (fSampleSize c == 0)%Q -> featureSamples fuel c (S (fNumRetained c)) calls s = None.
Proof. exact single_remaining. Qed.
Print Assumptions C138_single_remaining_refuted.

Example C138_single_remaining_refuted_example : (fSampleSize (mkFeatures 0 1 0 5) == 0)%Q /\
  createFeatureSamplingFactory (mkFeatures 0 1 0 5) 6 = None /\ createFeatureSamplingFactory (mkFeatures 0 1 0 5) 7 = Some (1, 5).
Proof. repeat split; reflexivity. Qed.

(** If all features are retained, 32 additional features are sampled, regardless of the seed, which may not exist. *)
Theorem C138_all_retained_refuted : exists (c : featureSamplingConfig) (numFeatures : nat) (sample : list nat),
    fSampleSize c = 0%Q /\ fNumRetained c = numFeatures /\
    (forall fuel s, featureSamples fuel c numFeatures 1 s = Some [sample]) /\
    length sample = numFeatures + 32 /\ ~ NoDup sample /\ exists i, In i sample /\ numFeatures <= i.
Proof. exact all_retained. Qed.
Print Assumptions C138_all_retained_refuted.

(** The minimum and maximum are ignored if the size is not specified. *)
Theorem C138_bounds_refuted : exists (c1 c2 : featureSamplingConfig) (numFeatures k1 k2 : nat),
    fMinSamples c1 <= fMaxSamples c1 /\ createFeatureSamplingFactory c1 numFeatures = Some (k1, 0) /\ fMaxSamples c1 < k1 /\
    fMinSamples c2 < numFeatures /\ createFeatureSamplingFactory c2 numFeatures = Some (k2, 0) /\ k2 < fMinSamples c2.
Proof. exact bounds_ignored. Qed.
Print Assumptions C138_bounds_refuted.
