(** Properties C01-C07, C10-C12: random numbers and sampling. *)
From Coq Require Import NArith Arith List Bool Lia Permutation ZArith QArith Qround.
From Verif Require Import Lib.Arr Model.Rng Model.Sampling Proofs.Rng Proofs.Sampling.
Import ListNotations.
Open Scope nat_scope.

(** ** C01 *)
Theorem C01_random_numbers_in_range :
  forall (seed : N) (reqs : list (N * N)),
    setRandomState seed = Some seed -> (seed < 2 ^ 32)%N ->
    Forall (fun q => (fst q < snd q < 2 ^ 32)%N) reqs ->
    exists results state,
      requests seed reqs = Some (results, state) /\
      Forall2 (fun q r => (fst q <= r < snd q)%N) reqs results /\
      (1 <= state < 2 ^ 32)%N.
Proof. exact C01_lemma. Qed.
Print Assumptions C01_random_numbers_in_range.

Example C01_example : requests 1 [(0, 10); (5, 7); (0, 4294967295)]%N = Some ([9; 6; 499951813]%N, 2647435461%N).
Proof. vm_compute. reflexivity. Qed.

(** ** C02 *)
Theorem C02_full_period :
  forall s v : N, (1 <= s < 2 ^ 32)%N -> (1 <= v < 2 ^ 32)%N ->
    exists k, (N.of_nat k < 2 ^ 32 - 1)%N /\
      exists rs, requests s (repeat (0, 1)%N (S k)) = Some (rs, v).
Proof. exact C02_lemma1. Qed.
Print Assumptions C02_full_period.

Theorem C02_no_early_repetition :
  forall (s : N) (j : nat), (1 <= s < 2 ^ 32)%N -> (0 < N.of_nat j < 2 ^ 32 - 1)%N ->
    forall rs s', requests s (repeat (0, 1)%N j) = Some (rs, s') -> s' <> s.
Proof. exact C02_lemma3. Qed.
Print Assumptions C02_no_early_repetition.

Theorem C02_every_value_is_drawn :
  forall s lo hi t : N, (1 <= s < 2 ^ 32)%N -> (lo <= t < hi)%N -> (hi < 2 ^ 32)%N -> (t - lo < 2 ^ 31)%N ->
    exists k rs s', (N.of_nat k < 2 ^ 32 - 1)%N /\
      requests s (repeat (lo, hi) (S k)) = Some (rs, s') /\ nth_error rs k = Some t.
Proof. exact C02_lemma2. Qed.
Print Assumptions C02_every_value_is_drawn.

Example C02_example : (1 <= 1 < 2 ^ 32)%N /\ (0 <= 8 < 10)%N /\ (8 - 0 < 2 ^ 31)%N /\
  exists rs s', requests 1 (repeat (0, 10)%N 14) = Some (rs, s') /\ nth_error rs 13 = Some 8%N.
Proof. split; [lia|]. split; [lia|]. split; [lia|]. eexists _, _. split; vm_compute; reflexivity. Qed.

(** ** C03 *)
Theorem C03_index_sampling :
  forall (fuel : nat) (out : list nat) (k : nat) (total : list nat) (s : N),
    (2 ^ 32 <= N.of_nat fuel)%N -> (1 <= s < 2 ^ 32)%N -> length out = k -> k <= length total ->
    (N.of_nat (length total) < 2 ^ 32)%N -> NoDup total ->
    exists out' s', sampleIndices fuel out k total (length total) s = Some (out', s') /\
      (length out' = k /\ NoDup out' /\ incl out' total) /\ (1 <= s' < 2 ^ 32)%N.
Proof. exact C03_lemma. Qed.
Print Assumptions C03_index_sampling.

Theorem C03_output_sampling :
  forall (fuel n m : nat) (out : list nat) (s : N),
    (2 ^ 32 <= N.of_nat fuel)%N -> (1 <= s < 2 ^ 32)%N -> (N.of_nat n < 2 ^ 32)%N -> length out = Nat.min n m ->
    exists out' s', outputSample fuel n m out s = Some (out', s') /\
      length out' = Nat.min n m /\ NoDup out' /\ (forall i, In i out' -> i < n).
Proof. exact C03_lemma2. Qed.
Print Assumptions C03_output_sampling.

(* One case per strategy: tracking selection, random permutation, reservoir sampling. *)
Example C03_example1 : ratioLow 2 40 = true /\
  exists s', sampleIndices 10 [0; 0] 2 (seq 0 40) 40 1 = Some ([9; 13], s').
Proof. split; [reflexivity|]. eexists. vm_compute. reflexivity. Qed.
Example C03_example2 : ratioLow 3 7 = false /\ ratioHigh 3 7 = false /\
  exists s', sampleIndices 0 [0; 0; 0] 3 (seq 0 7) 7 42 = Some ([4; 3; 6], s').
Proof. split; [reflexivity|]. split; [reflexivity|]. eexists. vm_compute. reflexivity. Qed.
Example C03_example3 : ratioHigh 4 6 = true /\
  exists s', sampleIndices 0 [0; 0; 0; 0] 4 (seq 0 6) 6 1 = Some ([0; 5; 2; 3], s').
Proof. split; [reflexivity|]. eexists. vm_compute. reflexivity. Qed.

(** ** C04 *)
Theorem C04_random_permutation :
  forall (first second : list nat) (numPermutations : nat) (s : N),
    (1 <= s < 2 ^ 32)%N -> (N.of_nat (length first + length second) < 2 ^ 32)%N ->
    numPermutations <= length first + length second ->
    exists first' second' s',
      randomPermutation first second (length first) (length first + length second) numPermutations s
        = Some (first', second', s') /\
      length first' = length first /\ length second' = length second /\
      Permutation (first ++ second) (first' ++ second') /\ (1 <= s' < 2 ^ 32)%N.
Proof. exact C04_lemma. Qed.
Print Assumptions C04_random_permutation.

Example C04_example : exists s', randomPermutation [1; 2; 3] [4; 5] 3 5 5 7 = Some ([4; 5; 2], [3; 1], s').
Proof. eexists. vm_compute. reflexivity. Qed.

(** ** C05 *)
Theorem C05_weights_without_replacement :
  forall (fuel : nat) (w : list bool) (total : list nat) (k : nat) (s : N),
    (2 ^ 32 <= N.of_nat fuel)%N -> (1 <= s < 2 ^ 32)%N -> (N.of_nat (length total) < 2 ^ 32)%N -> NoDup total ->
    (forall i, In i total -> i < length w) -> k <= length total ->
    exists w' n s', sampleWeights fuel w total (length total) k s = Some (w', n, s') /\
      n = k /\
      (length w' = length w /\ count_occ bool_dec w' true = k /\
       forall i, nth_error w' i = Some true -> In i total) /\
      (1 <= s' < 2 ^ 32)%N.
Proof. exact C05_lemma. Qed.
Print Assumptions C05_weights_without_replacement.

Example C05_example : exists s',
  sampleWeights 0 [true; true; true; true; true] [4; 0; 2] 3 2 3 = Some ([true; false; false; false; true], 2, s').
Proof. eexists. vm_compute. reflexivity. Qed.

(** ** C06 *)
Theorem C06_weights_with_replacement :
  forall (training : list nat) (numExamples numSamples : nat) (s : N),
    (1 <= s < 2 ^ 32)%N -> (N.of_nat (length training) < 2 ^ 32)%N -> 0 < length training ->
    (forall i, In i training -> i < numExamples) ->
    exists w n s',
      sampleWithReplacement training (length training) numExamples numSamples s = Some (w, n, s') /\
      length w = numExamples /\ list_sum w = numSamples /\
      n = length (filter (fun x => negb (x =? 0)) w) /\
      (forall i x, nth_error w i = Some x -> ~ In i training -> x = 0) /\ (1 <= s' < 2 ^ 32)%N.
Proof. exact C06_lemma. Qed.
Print Assumptions C06_weights_with_replacement.

Example C06_example : exists s', sampleWithReplacement [0; 2; 3] 3 5 6 1 = Some ([2; 0; 3; 1; 0], 3, s').
Proof. eexists. vm_compute. reflexivity. Qed.

(** ** C07 *)
Theorem C07_random_holdout :
  forall (numTraining numHoldout : nat) (s : N),
    (1 <= s < 2 ^ 32)%N -> (N.of_nat (numTraining + numHoldout) < 2 ^ 32)%N ->
    exists training holdout s',
      randomBiPartition numTraining numHoldout s = Some (training, holdout, s') /\
      length training = numTraining /\ length holdout = numHoldout /\
      Permutation (training ++ holdout) (seq 0 (numTraining + numHoldout)) /\ (1 <= s' < 2 ^ 32)%N.
Proof. exact C07_lemma. Qed.
Print Assumptions C07_random_holdout.

Example C07_example : exists s', randomBiPartition 3 2 5 = Some ([0; 2; 1], [3; 4], s').
Proof. eexists. vm_compute. reflexivity. Qed.

(** ** C10 *)
Theorem C10_feature_sampling :
  forall (fuel numFeatures k r calls : nat) (s : N),
    (2 ^ 32 <= N.of_nat fuel)%N -> (1 <= s < 2 ^ 32)%N -> (N.of_nat numFeatures < 2 ^ 32)%N ->
    k + r <= numFeatures ->
    exists v samples,
      featureSamplingInit numFeatures k r = Some v /\
      featureRun fuel numFeatures k r calls v s = Some samples /\ length samples = calls /\
      Forall (fun sample =>
        length sample = k + r /\ NoDup sample /\ (forall i, In i sample -> i < numFeatures) /\
        (forall i, numFeatures - r <= i < numFeatures -> In i sample)) samples.
Proof. exact C10_lemma. Qed.
Print Assumptions C10_feature_sampling.

Example C10_example : exists v, featureSamplingInit 6 2 2 = Some v /\
  featureRun 0 6 2 2 3 v 1 = Some [[4; 5; 1; 2]; [4; 5; 1; 3]; [4; 5; 1; 2]].
Proof. eexists. split; vm_compute; reflexivity. Qed.

(** ** C11 *)
Theorem C11_round_robin :
  forall n start : nat, 0 < n ->
    let calls := roundRobinRun n 0 (start + n) in
    Permutation (skipn start calls) (seq 0 n) /\
    (forall i x, nth_error calls i = Some x -> x = i mod n).
Proof. exact C11_lemma. Qed.
Print Assumptions C11_round_robin.

Example C11_example : roundRobinRun 3 0 8 = [0; 1; 2; 0; 1; 2; 0; 1].
Proof. reflexivity. Qed.

(** ** C12 *)
Theorem C12_bounded_fraction :
  forall (n : nat) (fraction : Q) (minimum maximum : nat),
    (0 <= fraction)%Q -> (fraction <= 1)%Q ->
    let r := calculateBoundedFraction n fraction minimum maximum in
    let c := Z.to_nat (Qceiling (fraction * inject_Z (Z.of_nat n))) in
    (Nat.min minimum n <= r /\ (minimum <= maximum -> r <= maximum) /\ r <= n) /\
    r = Nat.max (Nat.min minimum n) (if minimum <=? maximum then Nat.min c maximum else c).
Proof. exact C12_lemma. Qed.
Print Assumptions C12_bounded_fraction.

Example C12_example : calculateBoundedFraction 10 (1 # 3) 1 0 = 4 /\ calculateBoundedFraction 10 (1 # 3) 5 0 = 5 /\
  calculateBoundedFraction 10 (1 # 3) 1 2 = 2.
Proof. repeat split. Qed.
