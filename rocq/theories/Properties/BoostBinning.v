(** Properties of gradient-based label binning. *)
From Coq Require Import QArith Qabs Reals Qreals List Bool Arith Permutation Sorted Lia.
From Verif Require Import Lib.Arr Model.BoostEvaluation Model.BoostBinning Spec.BoostEvaluation Spec.BoostBinning Proofs.BoostBinning.
Import ListNotations.
Open Scope Q_scope.

(** The default configuration. *)
Definition config : binningConfig := mkBinning (1 # 25) 1 0.
(** Four labels result in two bins. *)
Definition half : binningConfig := mkBinning (1 # 2) 1 0.
Definition initial : binnedState := mkState (repeat 9%nat 6) (repeat 7 4 ++ [0]) (repeat (7, 7) 4) (repeat 7%nat 4).
Definition statistics94 : list tuple := [(1, 1); (2, 1); (9, 1); (-4, 1); (0, 1); (10, 1)].

Example config_valid : validBinning config /\ validBinning half.
Proof. split; (split; [reflexivity|]; split; [reflexivity|]; split; [simpl; lia|left; reflexivity]). Qed.

(** ** C66: Label binning assigns valid bins
    Missing: according to the C++ standard, the conversion of NaN, which is encountered if all positive or all negative criteria
    are the same, is undefined. The theorem holds for any outcome of this conversion. *)
(** Labels are assigned to valid bins, according to the sign of their criterion and in the order of their criteria. The criteria in a bin differ by no more than the width of the bins. *)
Theorem C66_bins_partial : forall (conversion : nat) (c : binningConfig) (criteria : list Q),
  0 < binRatio c -> (1 <= minBins c)%nat ->
  exists info bins, getLabelInfo c criteria (length criteria) = Some info /\
    createBins (Some conversion) info criteria (length criteria) = Some bins /\ length bins = length criteria /\
    (forall i, (i < length criteria)%nat -> nth i criteria 0 == 0 -> nth i bins None = None) /\
    (forall i, (i < length criteria)%nat -> nth i criteria 0 < 0 ->
       exists k, nth i bins None = Some k /\ (k < numNegativeBins info)%nat) /\
    (forall i, (i < length criteria)%nat -> 0 < nth i criteria 0 ->
       exists k, nth i bins None = Some k /\ (numNegativeBins info <= k < numNegativeBins info + numPositiveBins info)%nat) /\
    (forall i j k l, (i < length criteria)%nat -> (j < length criteria)%nat -> nth i criteria 0 <= nth j criteria 0 ->
       nth i bins None = Some k -> nth j bins None = Some l -> (k <= l)%nat) /\
    (forall i j k, (i < length criteria)%nat -> (j < length criteria)%nat -> nth i bins None = Some k -> nth j bins None = Some k ->
       exists smallest largest, In smallest criteria /\ In largest criteria /\
         ((smallest < 0 /\ largest < 0 /\
           (nth j criteria 0 - nth i criteria 0) * inject_Z (Z.of_nat (numNegativeBins info)) <= largest - smallest) \/
          (0 < smallest /\ 0 < largest /\
           (nth j criteria 0 - nth i criteria 0) * inject_Z (Z.of_nat (numPositiveBins info)) <= largest - smallest))).
Proof. exact bins_valid. Qed.
Print Assumptions C66_bins_partial.

Example C66_bins_partial_example : 0 < binRatio half /\ (1 <= minBins half)%nat /\
  exists info, getLabelInfo half [-1; -2; -9; 4; 0; -10] 6 = Some info /\
  createBins (Some 0%nat) info [-1; -2; -9; 4; 0; -10] 6 = Some [Some 1; Some 1; Some 0; Some 2; None; Some 0]%nat.
Proof. split; [reflexivity|]. split; [simpl; lia|]. eexists. split; vm_compute; reflexivity. Qed.

(** If there is a single negative criterion, NaN is converted into an integer, which is undefined. *)
Theorem C66_conversion_refuted : exists c criteria info, validBinning c /\ getLabelInfo c criteria (length criteria) = Some info /\
    createBins None info criteria (length criteria) = None.
Proof. exact conversion_refuted. Qed.
Print Assumptions C66_conversion_refuted.

(** ** C94: Label binning results in optimal shared predictions
    Missing: this does not hold for partial heads. *)
(** The outputs in a bin share one score. The quality is the objective of the predicted scores. No other scores of the bins are better, if there is no L1 regularization. The members of the evaluator may be reused. *)
Theorem C94_complete_partial : forall (conversion : nat) (c : binningConfig) (l1 l2 : Q) (s : binnedState) (indices : list nat) (statistics : list tuple),
  validBinning c -> length indices = length statistics ->
  allocated (length indices) (getMaxBins c (length indices)) s ->
  binsFit c (individualScores l1 l2 statistics) (getMaxBins c (length indices)) ->
  exists info bins score sc s',
    getLabelInfo c (individualScores l1 l2 statistics) (length statistics) = Some info /\
    createBins (Some conversion) info (individualScores l1 l2 statistics) (length statistics) = Some bins /\
    evaluateCompleteBinned (Some conversion) c l1 l2 s indices statistics = Some (sc, s') /\
    allocated (length indices) (getMaxBins c (length indices)) s' /\
    scIndices sc = indices /\ length bins = length indices /\ scValues sc = binScores score bins /\
    scQuality sc == headObjective l1 l2 statistics (everyPosition statistics) (scValues sc) /\
    (l1 == 0 -> Forall (fun t => 0 < snd t + l2) statistics ->
     scQuality sc <= 0 /\ forall score', scQuality sc <= headObjective l1 l2 statistics (everyPosition statistics) (binScores score' bins)).
Proof. exact complete_binned. Qed.
Print Assumptions C94_complete_partial.

Example C94_complete_partial_example : length [0; 1; 2; 3; 4; 5]%nat = length statistics94 /\
  Forall (fun t => 0 < snd t + 0) statistics94 /\
  allocated 6 (getMaxBins half 6) initial /\ binsFit half (individualScores 0 0 statistics94) (getMaxBins half 6) /\
  exists sc s', evaluateCompleteBinned (Some 0%nat) half 0 0 initial [0; 1; 2; 3; 4; 5]%nat statistics94 = Some (sc, s') /\
    Forall2 Qeq (scValues sc) [-3 # 2; -3 # 2; -19 # 2; 4; 0; -19 # 2].
Proof.
  split; [reflexivity|]. split; [repeat constructor|]. split; [|split].
  - split; [|split; [|split; [|split]]]; vm_compute; reflexivity.
  - intros info H. vm_compute in H. injection H as <-. vm_compute. lia.
  - eexists. eexists. split; [vm_compute; reflexivity|]. repeat constructor.
Qed.

(** Rules that predict for a subset of the outputs use the statistics of other outputs. *)
Theorem C94_partial_heads_refuted : exists conversion c s k indices statistics sorted sc s' p, validBinning c /\ length indices = length statistics /\ NoDup indices /\
    allocated k (getMaxBins c k) s /\ partialSort k (outputWiseScores 0 0 statistics) sorted /\
    evaluateFixedBinned (Some conversion) c 0 0 s k indices statistics sorted = Some (sc, s') /\
    scIndices sc = [nth p indices 0%nat] /\
    scValues sc = [-1] /\ scQuality sc < 0 /\
    10 < headObjective 0 0 statistics [p] (scValues sc) /\ headObjective 0 0 statistics [p] [10] < -40.
Proof. exact fixed_binned_refuted. Qed.
Print Assumptions C94_partial_heads_refuted.

(** ** C95: The bins do not exceed the memory allocated for them
    Missing: this does not hold for all configurations. *)
(** The capacity is sufficient for the default configuration. *)
Theorem C95_default_partial : forall (c : binningConfig) (criteria : list Q) (numLabels : nat),
  validBinning c -> minBins c = 1%nat -> (maxBins c <= 1)%nat -> (length criteria <= numLabels)%nat ->
  binsFit c criteria (getMaxBins c numLabels).
Proof. exact default_fits. Qed.
Print Assumptions C95_default_partial.

Example C95_default_partial_example : validBinning half /\ minBins half = 1%nat /\ (maxBins half <= 1)%nat /\
  exists info, getLabelInfo half [-1; -2; -9; 4; 0; -10; 3; 7] 8 = Some info /\
    (numPositiveBins info + numNegativeBins info = 4)%nat /\ getMaxBins half 8 = 5%nat.
Proof.
  split; [apply config_valid|]. split; [reflexivity|]. split; [simpl; lia|]. eexists. split; [vm_compute; reflexivity|].
  split; reflexivity.
Qed.

(** If the number of bins is limited to two or more, memory beyond the end of an array is accessed for some statistics. *)
Theorem C95_maximum_partial : forall (conversion : option nat) (c : binningConfig),
  validBinning c -> (2 <= maxBins c)%nat ->
  exists indices statistics, length indices = length statistics /\ NoDup indices /\
    forall s, allocated (length indices) (getMaxBins c (length indices)) s ->
    evaluateCompleteBinned conversion c 0 0 s indices statistics = None.
Proof. exact max_overflow. Qed.
Print Assumptions C95_maximum_partial.

Example C95_maximum_partial_example : let c := mkBinning (1 # 2) 2 4 in validBinning c /\ (2 <= maxBins c)%nat.
Proof. split; [|simpl; lia]. split; [reflexivity|]. split; [reflexivity|]. split; [simpl; lia|]. right. simpl. lia. Qed.

(** The same applies to a minimum number of bins. *)
Theorem C95_minimum_refuted : exists conversion c s indices statistics, validBinning c /\ length indices = length statistics /\ maxBins c = 0%nat /\
    allocated (length indices) (getMaxBins c (length indices)) s /\
    evaluateCompleteBinned (Some conversion) c 0 1 s indices statistics = None.
Proof. exact min_overflow_refuted. Qed.
Print Assumptions C95_minimum_refuted.
