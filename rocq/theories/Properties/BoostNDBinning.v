(** Properties of gradient-based label binning with non-decomposable loss functions. *)
From Coq Require Import QArith Qabs List Bool Arith Permutation Sorted Lia Lqa.
From Verif Require Import Lib.Arr Spec.Stopping Model.BoostEvaluation Model.BoostBinning Model.BoostNonDecomposable
  Model.BoostNDBinning Spec.BoostEvaluation Spec.BoostBinning Spec.BoostNonDecomposable Spec.BoostNDBinning
  Proofs.BoostNonDecomposable Proofs.BoostNDBinning.
Import ListNotations.
Open Scope Q_scope.

(** ** C111: Label binning results in optimal shared predictions for non-decomposable loss functions
    Missing: the Hessians of different outputs in the same bin are ignored, L1 regularisation does not take the number of
    outputs in a bin into account properly, and partial heads use the statistics of other outputs. *)
(** The outputs in a bin share one score. The quality differs from the objective by the ignored interactions. Without these, and without L1 regularisation, no other scores of the bins are better. The members of the evaluator may be reused. *)
Theorem C111_complete_partial : forall (dsysv : solver) (conversion : nat) (c : binningConfig) (l1 l2 : Q) (n : nat) (tmp : list Q) (s : ndBinnedState) (indices : list nat)
         (gradients hessians : list Q) (statistics : list tuple),
  validBinning c -> validSolver dsysv -> 0 <= l1 -> 0 <= l2 ->
  length indices = n -> length gradients = n -> length hessians = triangularNumber n ->
  length tmp = (getMaxBins c n * getMaxBins c n)%nat -> allocatedND n (getMaxBins c n) s ->
  diagonal gradients hessians = Some statistics -> binsFit c (individualScores l1 l2 statistics) (getMaxBins c n) ->
  exists info bins,
    getLabelInfo c (individualScores l1 l2 statistics) n = Some info /\
    createBins (Some conversion) info (individualScores l1 l2 statistics) n = Some bins /\ length bins = n /\
    (totalSolver dsysv -> evaluateCompleteBinnedND (Some conversion) dsysv c l1 l2 tmp s indices gradients hessians <> None) /\
    (forall sc s', evaluateCompleteBinnedND (Some conversion) dsysv c l1 l2 tmp s indices gradients hessians = Some (sc, s') ->
     allocatedND n (getMaxBins c n) s' /\ scIndices sc = indices /\ (exists score, scValues sc = binScores score bins) /\
     scQuality sc + interactions hessians bins (scValues sc) == quadratic l1 l2 gradients hessians (seq 0 n) (scValues sc) /\
     (l1 == 0 -> positiveSemidefinite n (regularised l2 hessians) -> independentBins hessians bins ->
      scQuality sc <= 0 /\ forall score', scQuality sc <= quadratic l1 l2 gradients hessians (seq 0 n) (binScores score' bins))).
Proof. exact complete_binned_nd. Qed.
Print Assumptions C111_complete_partial.

Example C111_complete_partial_example :
  let c := mkBinning (1 # 25) 1 0 in let gradients := [1; -3; 2] in let hessians := [1; 1 # 2; 1; 0; 1 # 2; 1] in
  let statistics := [(1, 1); (-3, 1); (2, 1)] in
  validBinning c /\ validSolver (checked [-6; 9]) /\ length hessians = triangularNumber 3 /\ allocatedND 3 (getMaxBins c 3) (initialND 3 2) /\
  diagonal gradients hessians = Some statistics /\ binsFit c (individualScores 0 0 statistics) (getMaxBins c 3) /\
  positiveSemidefinite 3 (regularised 0 hessians) /\ independentBins hessians [Some 0; Some 1; Some 0]%nat /\
  exists info sc s', getLabelInfo c (individualScores 0 0 statistics) 3 = Some info /\
    createBins (Some 0%nat) info (individualScores 0 0 statistics) 3 = Some [Some 0; Some 1; Some 0]%nat /\
    evaluateCompleteBinnedND (Some 0%nat) (checked [-6; 9]) c 0 0 [7; 7; 7; 7] (initialND 3 2) [4; 5; 8]%nat gradients hessians = Some (sc, s') /\
    scIndices sc = [4; 5; 8]%nat /\ scValues sc = [-6; 9; -6] /\ scQuality sc == -45 # 2.
Proof.
  split; [split; [reflexivity|]; split; [reflexivity|]; split; [simpl; lia|left; reflexivity]|].
  split; [apply checked_valid|]. split; [reflexivity|].
  split; [split; [|split; [|split; [|split; [|split; [|split]]]]]; vm_compute; reflexivity|].
  split; [vm_compute; reflexivity|]. split; [intros info E; vm_compute in E; injection E as <-; vm_compute; lia|].
  split.
  { intros x. unfold sumQ, regularised, hessianAt, Qsum. simpl. set (a := x 0%nat). set (b := x 1%nat). set (d := x 2%nat). clearbody a b d.
    pose proof (Qsq_nonneg a). pose proof (Qsq_nonneg d). pose proof (Qsq_nonneg (a + b)). pose proof (Qsq_nonneg (b + d)). lra. }
  split.
  { intros i j Hj Hi E. simpl in Hi. assert (i = 1 /\ j = 0 \/ i = 2 /\ j = 0 \/ i = 2 /\ j = 1)%nat as [(-> & ->)|[(-> & ->)|(-> & ->)]] by lia;
      [discriminate E|reflexivity|discriminate E]. }
  eexists. eexists. eexists. split; [vm_compute; reflexivity|]. split; [vm_compute; reflexivity|]. split; [vm_compute; reflexivity|].
  split; [reflexivity|]. split; [reflexivity|reflexivity].
Qed.

(** If outputs in the same bin interact, the loss may increase, although a negative quality is reported. *)
Theorem C111_interactions_refuted : exists (dsysv : solver) (conversion : nat) (c : binningConfig) (tmp : list Q) (s : ndBinnedState) (gradients hessians : list Q) (statistics : list tuple)
         (sc : scores) (s' : ndBinnedState),
  validBinning c /\ validSolver dsysv /\ length tmp = (getMaxBins c 3 * getMaxBins c 3)%nat /\ allocatedND 3 (getMaxBins c 3) s /\
  length gradients = 3%nat /\ length hessians = triangularNumber 3 /\ positiveSemidefinite 3 (regularised 0 hessians) /\
  diagonal gradients hessians = Some statistics /\ binsFit c (individualScores 0 0 statistics) (getMaxBins c 3) /\
  evaluateCompleteBinnedND (Some conversion) dsysv c 0 0 tmp s [0; 1; 2]%nat gradients hessians = Some (sc, s') /\
  scQuality sc < 0 < quadratic 0 0 gradients hessians [0; 1; 2]%nat (scValues sc).
Proof. exact interactions_refuted. Qed.
Print Assumptions C111_interactions_refuted.

(** L1 regularisation of bins with several outputs results in positive scores, although all gradients are positive. *)
Theorem C111_l1_refuted : exists (dsysv : solver) (conversion : nat) (c : binningConfig) (l1 : Q) (tmp : list Q) (s : ndBinnedState) (gradients hessians : list Q)
         (statistics : list tuple) (sc : scores) (s' : ndBinnedState),
  validBinning c /\ validSolver dsysv /\ 0 <= l1 /\ length tmp = (getMaxBins c 2 * getMaxBins c 2)%nat /\ allocatedND 2 (getMaxBins c 2) s /\
  length gradients = 2%nat /\ length hessians = triangularNumber 2 /\ diagonalHessians 2 hessians /\ 
  diagonal gradients hessians = Some statistics /\ Forall (fun t => 0 < fst t /\ 0 < snd t) statistics /\
  binsFit c (individualScores l1 0 statistics) (getMaxBins c 2) /\
  evaluateCompleteBinnedND (Some conversion) dsysv c l1 0 tmp s [0; 1]%nat gradients hessians = Some (sc, s') /\
  Forall (fun v => 0 < v) (scValues sc) /\ 0 < scQuality sc.
Proof. exact binned_l1_refuted. Qed.
Print Assumptions C111_l1_refuted.

(** Rules that predict for a subset of the outputs use the statistics of other outputs. *)
Theorem C111_partial_heads_refuted : exists (dsysv : solver) (conversion : nat) (c : binningConfig) (tmp : list Q) (s : ndBinnedState) (gradients hessians : list Q) (statistics : list tuple)
         (sorted : list (nat * Q)) (sc : scores) (s' : ndBinnedState),
  validBinning c /\ validSolver dsysv /\ length tmp = (getMaxBins c 1 * getMaxBins c 1)%nat /\ allocatedND 1 (getMaxBins c 1) s /\
  length gradients = 2%nat /\ length hessians = triangularNumber 2 /\ diagonalHessians 2 hessians /\
  diagonal gradients hessians = Some statistics /\ Forall (fun t => 0 < snd t) statistics /\
  partialSort 1 (outputWiseScores 0 0 statistics) sorted /\
  evaluateFixedBinnedND (Some conversion) dsysv c 0 0 tmp s 1 [0; 1]%nat gradients hessians sorted = Some (sc, s') /\
  scIndices sc = [1%nat] /\ scQuality sc < 0 < quadratic 0 0 gradients hessians [1%nat] (scValues sc) /\
  quadratic 0 0 gradients hessians [1%nat] [10] < -40.
Proof. exact fixed_binned_nd_refuted. Qed.
Print Assumptions C111_partial_heads_refuted.
