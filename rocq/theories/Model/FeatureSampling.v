(** The number of features that are sampled for learning rules. *)
From Coq Require Import NArith QArith Arith List Bool.
From Verif Require Import Lib.Arr Model.Rng Model.Sampling.
Import ListNotations.
Open Scope nat_scope.

(** feature_sampling_without_replacement.hpp and .cpp, lines 101-102: the configuration. *)
Record featureSamplingConfig : Type := mkFeatures {
  fSampleSize : Q; fMinSamples : nat; fMaxSamples : nat; fNumRetained : nat
}.

(** cpp/subprojects/common/src/mlrl/common/sampling/feature_sampling_without_replacement.cpp, line 102: default values. *)
Definition defaultFeatures : featureSamplingConfig := mkFeatures 0 1 0 0.

(** feature_sampling_without_replacement.cpp, lines 145-162: the number of features to be sampled and retained. *)
Definition createFeatureSamplingFactory (c : featureSamplingConfig) (numFeatures : nat) : option (nat * nat) :=
  numFeatureSamples numFeatures (fNumRetained c) (fSampleSize c) (fMinSamples c) (fMaxSamples c).

(** feature_sampling_without_replacement.cpp, lines 49-54. [operator[]] of [IndexIterator] returns its argument
    (iterator_index.cpp), so that any element may be accessed, even if there are less features to sample from. *)
Definition sampleFeatures (fuel numFeatures numSamples numRetained : nat) (v : list nat) (s : N) : option (list nat * N) :=
  let numTotal := numFeatures - numRetained in
  let* (out, s') :=
    sampleIndices fuel (skipn numRetained v) numSamples (seq 0 (Nat.max numTotal numSamples)) numTotal s in
  Some (firstn numRetained v ++ out, s').

(** Consecutive calls of [sample]. *)
Fixpoint sampleRepeatedly (fuel numFeatures numSamples numRetained calls : nat) (v : list nat) (s : N)
  : option (list (list nat)) :=
  match calls with
  | O => Some []
  | S calls' =>
      let* (v', s') := sampleFeatures fuel numFeatures numSamples numRetained v s in
      let* r := sampleRepeatedly fuel numFeatures numSamples numRetained calls' v' s' in
      Some (v' :: r)
  end.

(** feature_sampling_without_replacement.cpp, lines 93-96 and 35-47: the samples that are drawn by a learner. *)
Definition featureSamples (fuel : nat) (c : featureSamplingConfig) (numFeatures calls : nat) (s : N) : option (list (list nat)) :=
  let* (numSamples, numRetained) := createFeatureSamplingFactory c numFeatures in
  let* v := featureSamplingInit numFeatures numSamples numRetained in
  sampleRepeatedly fuel numFeatures numSamples numRetained calls v s.
