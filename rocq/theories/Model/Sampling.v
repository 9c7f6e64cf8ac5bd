(** Model of the sampling routines for indices, weights, features, outputs and holdout sets.
    Sources (below cpp/subprojects/common): src/mlrl/common/sampling/index_sampling.hpp,
    include/mlrl/common/sampling/weight_sampling.hpp, src/mlrl/common/sampling/*.cpp.

    An iterator [totalIterator] is modelled by the list [total] of the values it yields.
    [fuel] bounds the number of redraws of a single [while] loop (see Properties). *)
From Coq Require Import NArith Arith List Bool ZArith QArith Qround.
From Verif Require Import Lib.Arr Model.Rng.
Import ListNotations.
Open Scope nat_scope.

(** [std::unordered_set::count]. *)
Definition mem (x : nat) (l : list nat) : bool := existsb (Nat.eqb x) l.

(** index_sampling.hpp, lines 32-36 (and weight_sampling.hpp, lines 34-38): redraw until the value has not
    been selected before. [None]: out of fuel or undefined behaviour. *)
Fixpoint draw_unseen (fuel : nat) (total : list nat) (numTotal : nat) (selected : list nat) (s : N)
  : option (nat * N) :=
  match fuel with
  | O => None
  | S fuel' =>
      let* (randomIndex, s') := randomInt s 0 numTotal in
      let* sampledIndex := aget total randomIndex in
      if mem sampledIndex selected then draw_unseen fuel' total numTotal selected s'
      else Some (sampledIndex, s')
  end.

(** index_sampling.hpp, lines 22-40. State: output array, selected indices, generator. *)
Definition sampleTracking (fuel : nat) (out : list nat) (numSamples : nat) (total : list nat) (numTotal : nat)
    (s : N) : option (list nat * N) :=
  let* (out', _, s') :=
    forN numSamples 0 (fun i '(out, selected, s) =>
      let* (sampledIndex, s') := draw_unseen fuel total numTotal selected s in
      let* out' := aset out i sampledIndex in
      Some (out', sampledIndex :: selected, s')) (out, [], s) in
  Some (out', s').

(** index_sampling.hpp, lines 57-59 (and 127-129). *)
Definition copyPrefix (out : list nat) (numSamples : nat) (total : list nat) : option (list nat) :=
  forN numSamples 0 (fun i out => let* x := aget total i in aset out i x) out.

(** index_sampling.hpp, lines 53-68. *)
Definition sampleReservoir (out : list nat) (numSamples : nat) (total : list nat) (numTotal : nat)
    (s : N) : option (list nat * N) :=
  let* out := copyPrefix out numSamples total in
  forN (numTotal - numSamples) numSamples (fun i '(out, s) =>
    let* (randomIndex, s') := randomInt s 0 (i + 1) in
    if randomIndex <? numSamples then
      let* x := aget total i in
      let* out' := aset out randomIndex x in Some (out', s')
    else Some (out, s')) (out, s).

(** index_sampling.hpp, lines 85-108. *)
Definition randomPermutation (first second : list nat) (numFirst numTotal numPermutations : nat) (s : N)
  : option (list nat * list nat * N) :=
  forN numPermutations 0 (fun i '(first, second, s) =>
    let* (randomIndex, s') := randomInt s i numTotal in
    let* tmp1 := (if i <? numFirst then aget first i else aget second (i - numFirst)) in
    let* (tmp2, first, second) :=
      (if randomIndex <? numFirst then
         let* tmp2 := aget first randomIndex in
         let* first' := aset first randomIndex tmp1 in Some (tmp2, first', second)
       else
         let* tmp2 := aget second (randomIndex - numFirst) in
         let* second' := aset second (randomIndex - numFirst) tmp1 in Some (tmp2, first, second')) in
    if i <? numFirst then let* first' := aset first i tmp2 in Some (first', second, s')
    else let* second' := aset second (i - numFirst) tmp2 in Some (first, second', s')) (first, second, s).

(** index_sampling.hpp, lines 121-136. The uninitialised array [unusedIndices] is modelled as zeros; each of
    its elements is written in lines 131-133 before it is read. *)
Definition samplePermutation (out : list nat) (numSamples : nat) (total : list nat) (numTotal : nat)
    (s : N) : option (list nat * N) :=
  let* out := copyPrefix out numSamples total in
  let* unused :=
    forN (numTotal - numSamples) numSamples (fun i unused =>
      let* x := aget total i in aset unused (i - numSamples) x) (repeat 0 (numTotal - numSamples)) in
  let* (out', _, s') := randomPermutation out unused numSamples numTotal numSamples s in
  Some (out', s').

(** index_sampling.hpp, lines 152, 155 and 158, weight_sampling.hpp, line 100: [ratio < 0.06], [ratio > 0.5].
    The comparison is done with exact integers: fractions with denominator below 2^32 differ from 0.06 by
    0 or at least 4e-12, which double precision resolves, so both tests have the same outcome. *)
Definition ratioLow (numSamples numTotal : nat) : bool :=
  if 0 <? numTotal then 100 * numSamples <? 6 * numTotal else false.
(** See above (index_sampling.hpp, lines 152, 155 and 158; weight_sampling.hpp, line 100). *)
Definition ratioHigh (numSamples numTotal : nat) : bool :=
  if 0 <? numTotal then numTotal <? 2 * numSamples else true.

(** index_sampling.hpp, lines 149-165. *)
Definition sampleIndices (fuel : nat) (out : list nat) (numSamples : nat) (total : list nat) (numTotal : nat)
    (s : N) : option (list nat * N) :=
  if ratioLow numSamples numTotal then sampleTracking fuel out numSamples total numTotal s
  else if ratioHigh numSamples numTotal then sampleReservoir out numSamples total numTotal s
  else samplePermutation out numSamples total numTotal s.

(** weight_sampling.hpp, lines 24-44. The bit vector is a list of booleans (see Model/BitVector.v); the pair
    returned is (weights, numNonZeroWeights). *)
Definition weightsTracking (fuel : nat) (w : list bool) (total : list nat) (numTotal numSamples : nat)
    (s : N) : option (list bool * nat * N) :=
  let w := map (fun _ => false) w in
  let* (w', _, s') :=
    forN numSamples 0 (fun _ '(w, selected, s) =>
      let* (sampledIndex, s') := draw_unseen fuel total numTotal selected s in
      let* w' := aset w sampledIndex true in
      Some (w', sampledIndex :: selected, s')) (w, [], s) in
  Some (w', numSamples, s').

(** weight_sampling.hpp, lines 58-82. *)
Definition weightsPool (w : list bool) (total : list nat) (numTotal numSamples : nat)
    (s : N) : option (list bool * nat * N) :=
  let w := map (fun _ => false) w in
  let* pool := forN numTotal 0 (fun i pool => let* x := aget total i in aset pool i x) (repeat 0 numTotal) in
  let* (w', _, s') :=
    forN numSamples 0 (fun i '(w, pool, s) =>
      let* (randomIndex, s') := randomInt s 0 (numTotal - i) in
      let* sampledIndex := aget pool randomIndex in
      let* w' := aset w sampledIndex true in
      let* last := aget pool (numTotal - i - 1) in
      let* pool' := aset pool randomIndex last in
      Some (w', pool', s')) (w, pool, s) in
  Some (w', numSamples, s').

(** weight_sampling.hpp, lines 97-109. *)
Definition sampleWeights (fuel : nat) (w : list bool) (total : list nat) (numTotal numSamples : nat)
    (s : N) : option (list bool * nat * N) :=
  if ratioLow numSamples numTotal then weightsTracking fuel w total numTotal numSamples s
  else weightsPool w total numTotal numSamples s.

(** instance_sampling_with_replacement.cpp, lines 33-58 (and 9-31, where [indices] is the identity).
    Returns (weights, numNonZeroWeights, generator). [numExamples] is the size of the whole partition. *)
Definition sampleWithReplacement (indices : list nat) (numTraining numExamples numSamples : nat) (s : N)
  : option (list nat * nat * N) :=
  forN numSamples 0 (fun _ '(w, nz, s) =>
    let* (randomIndex, s') := randomInt s 0 numTraining in
    let* sampledIndex := aget indices randomIndex in
    let* previousWeight := aget w sampledIndex in
    let* w' := aset w sampledIndex (previousWeight + 1) in
    Some (w', (if previousWeight =? 0 then nz + 1 else nz), s')) (repeat 0 numExamples, 0, s).

(** partition_sampling_bi_random.cpp, lines 29-44. *)
Definition randomBiPartition (numTraining numHoldout : nat) (s : N) : option (list nat * list nat * N) :=
  let training := seq 0 numTraining in
  let* holdout := forN numHoldout 0 (fun i h => aset h i (numTraining + i)) (repeat 0 numHoldout) in
  randomPermutation training holdout numTraining (numTraining + numHoldout) numTraining s.

(** util/math.hpp (common), lines 66-84: [calculateBoundedFraction]. Exact arithmetic: the product of the
    fraction and the number of elements is not rounded to single precision. *)
Definition calculateBoundedFraction (numTotal : nat) (fraction : Q) (minimum maximum : nat) : nat :=
  let result := Z.to_nat (Qceiling (fraction * inject_Z (Z.of_nat numTotal))) in
  let min := Nat.min minimum numTotal in
  if result <? min then min
  else if (minimum <=? maximum) && (maximum <? result) then maximum else result.

(** output_sampling_round_robin.cpp, lines 24-33: state is [nextIndex_]. *)
Definition roundRobin (numOutputs nextIndex : nat) : nat * nat :=
  let sampled := nextIndex in
  let nextIndex := nextIndex + 1 in
  (sampled, if numOutputs <=? nextIndex then 0 else nextIndex).

(** A client that requests [k] samples, starting with the state set by the constructor (line 22). *)
Fixpoint roundRobinRun (numOutputs nextIndex k : nat) : list nat :=
  match k with
  | O => []
  | S k' => let '(x, n) := roundRobin numOutputs nextIndex in x :: roundRobinRun numOutputs n k'
  end.

(** feature_sampling_without_replacement.cpp, lines 35-47: constructor; state is the index vector. *)
Definition featureSamplingInit (numFeatures numSamples numRetained : nat) : option (list nat) :=
  forN numRetained 0 (fun i v => aset v i (numFeatures - numRetained + i)) (repeat 0 (numSamples + numRetained)).

(** feature_sampling_without_replacement.cpp, lines 49-54. The pointer to element [numRetained_] is modelled by
    splitting the vector. *)
Definition featureSample (fuel numFeatures numSamples numRetained : nat) (v : list nat) (s : N)
  : option (list nat * N) :=
  let numTotal := numFeatures - numRetained in
  let* (out, s') := sampleIndices fuel (skipn numRetained v) numSamples (seq 0 numTotal) numTotal s in
  Some (firstn numRetained v ++ out, s').

(** feature_sampling_without_replacement.cpp, lines 145-156: number of samples chosen by the configuration.
    [None]: [log2(0)] is minus infinity, whose conversion to [uint32] is undefined. For a single remaining
    feature [numRemainingFeatures - 1] is 0; for none it wraps around to 2^32-1. *)
Definition numFeatureSamples (numFeatures numRetainedCfg : nat) (sampleSize : Q) (minS maxS : nat)
  : option (nat * nat) :=
  let numRetained := Nat.min numRetainedCfg numFeatures in
  let numRemaining := numFeatures - numRetained in
  let* k :=
    (if Qle_bool sampleSize 0 then
       if numRemaining =? 0 then Some (N.to_nat (N.log2 (2 ^ 32 - 1) + 1))
       else if numRemaining =? 1 then None
       else Some (Nat.log2 (numRemaining - 1) + 1)
     else Some (calculateBoundedFraction numRemaining sampleSize minS maxS)) in
  Some (k, numRetained).

(** output_sampling_without_replacement.cpp, lines 61-62 and 32-36. *)
Definition outputSample (fuel numOutputs numSamplesCfg : nat) (v : list nat) (s : N) : option (list nat * N) :=
  let numSamples := if numOutputs <? numSamplesCfg then numOutputs else numSamplesCfg in
  sampleIndices fuel v numSamples (seq 0 numOutputs) numOutputs s.
