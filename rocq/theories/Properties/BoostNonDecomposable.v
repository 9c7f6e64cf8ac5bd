(** Properties of the rule evaluation of boosting algorithms that use non-decomposable loss functions. *)
From Coq Require Import QArith Qabs List Bool Arith Permutation Sorted Lia Lqa.
From Verif Require Import Lib.Arr Model.BoostEvaluation Spec.BoostEvaluation Spec.Stopping Model.BoostNonDecomposable
  Spec.BoostNonDecomposable Proofs.BoostNonDecomposable.
Import ListNotations.
Open Scope Q_scope.

Example positive_semidefinite : positiveSemidefinite 2 (regularised 0 [2; 1; 2]).
Proof. exact psd_diag2. Qed.

(** ** C96: Scores of complete heads minimise the regularised loss function
    Missing: this does not hold if an L1 regularisation weight is used. *)
(** The quality is the objective of the predicted scores. The scores are optimal, if there is no L1 regularisation. *)
Theorem C96_complete_partial : forall (dsysv : solver) (l1 l2 : Q) (n : nat) (tmp : list Q) (indices : list nat) (gradients hessians : list Q),
  wellFormed n indices gradients hessians tmp -> validSolver dsysv -> 0 <= l1 -> 0 <= l2 ->
  ((forall coefficients ordinates, length coefficients = (n * n)%nat -> length ordinates = n -> dsysv n coefficients ordinates <> None) ->
   evaluateCompleteND dsysv l1 l2 tmp indices gradients hessians <> None) /\
  (forall sc, evaluateCompleteND dsysv l1 l2 tmp indices gradients hessians = Some sc ->
   scIndices sc = indices /\ length (scValues sc) = n /\
   scQuality sc == quadratic l1 l2 gradients hessians (seq 0 n) (scValues sc) /\
   (l1 == 0 -> positiveSemidefinite n (regularised l2 hessians) ->
    optimal l1 l2 gradients hessians (seq 0 n) (scValues sc) /\ scQuality sc <= 0)).
Proof. exact complete_nd. Qed.
Print Assumptions C96_complete_partial.

Example C96_complete_partial_example : wellFormed 2 [3; 7]%nat [-3; -3] [2; 1; 2] [0; 0; 0; 0] /\ validSolver (checked [1; 1]) /\
  positiveSemidefinite 2 (regularised 0 [2; 1; 2]) /\
  exists sc, evaluateCompleteND (checked [1; 1]) 0 0 [0; 0; 0; 0] [3; 7]%nat [-3; -3] [2; 1; 2] = Some sc /\
    scIndices sc = [3; 7]%nat /\ scQuality sc == -3.
Proof.
  split; [repeat split|]. split; [apply checked_valid|]. split; [exact psd_diag2|].
  eexists. split; [vm_compute; reflexivity|]. split; reflexivity.
Qed.

(** The scores are optimal despite L1 regularisation, if all gradients exceed the weight and if the signs of the scores are opposed to those of the gradients. *)
Theorem C96_l1_partial : forall (dsysv : solver) (l1 l2 : Q) (n : nat) (tmp : list Q) (indices : list nat) (gradients hessians : list Q) (sc : scores),
  wellFormed n indices gradients hessians tmp -> validSolver dsysv -> 0 <= l1 -> 0 <= l2 ->
  positiveSemidefinite n (regularised l2 hessians) ->
  evaluateCompleteND dsysv l1 l2 tmp indices gradients hessians = Some sc ->
  (forall p, (p < n)%nat -> l1 < Qabs (gradientAt gradients p) /\ gradientAt gradients p * nth p (scValues sc) 0 <= 0) ->
  optimal l1 l2 gradients hessians (seq 0 n) (scValues sc).
Proof. exact complete_nd_l1. Qed.
Print Assumptions C96_l1_partial.

Example C96_l1_partial_example : wellFormed 2 [3; 7]%nat [-4; -4] [2; 1; 2] [0; 0; 0; 0] /\ 1 < Qabs (-4) /\
  exists sc, evaluateCompleteND (checked [1; 1]) 1 0 [0; 0; 0; 0] [3; 7]%nat [-4; -4] [2; 1; 2] = Some sc /\
    Forall (fun v => -4 * v <= 0) (scValues sc) /\ scQuality sc == -3.
Proof.
  split; [repeat split|]. split; [reflexivity|].
  eexists. split; [vm_compute; reflexivity|]. split; [repeat constructor; discriminate|reflexivity].
Qed.

(** If the absolute value of a gradient does not exceed the L1 regularisation weight, predicting zero is better. *)
Theorem C96_l1_refuted : exists (dsysv : solver) (l1 : Q) (gradients hessians tmp : list Q) (sc : scores),
  wellFormed 1 [0%nat] gradients hessians tmp /\ validSolver dsysv /\ 0 <= l1 /\ positiveSemidefinite 1 (regularised 0 hessians) /\
  evaluateCompleteND dsysv l1 0 tmp [0%nat] gradients hessians = Some sc /\
  quadratic l1 0 gradients hessians [0%nat] [0] < quadratic l1 0 gradients hessians [0%nat] (scValues sc) /\
  0 < scQuality sc.
Proof. exact complete_l1_refuted. Qed.
Print Assumptions C96_l1_refuted.

(** ** C97: Decomposable and non-decomposable rule evaluation agree
    Missing: this does not hold if an L1 regularisation weight is used. *)
(** The same heads result if the Hessians of different outputs are zero and if there is no L1 regularisation. *)
Theorem C97_agree_partial : forall (dsysv : solver) (l1 l2 : Q) (n : nat) (tmp : list Q) (indices : list nat) (gradients hessians : list Q) (statistics : list tuple)
         (sc sc' : scores),
  wellFormed n indices gradients hessians tmp -> validSolver dsysv -> l1 == 0 -> 0 <= l2 -> diagonalHessians n hessians ->
  diagonal gradients hessians = Some statistics -> Forall (fun t => 0 < snd t + l2) statistics ->
  evaluateCompleteND dsysv l1 l2 tmp indices gradients hessians = Some sc ->
  evaluateComplete l1 l2 indices statistics = Some sc' ->
  scIndices sc = scIndices sc' /\ Forall2 Qeq (scValues sc) (scValues sc') /\ scQuality sc == scQuality sc'.
Proof. exact agree_nd. Qed.
Print Assumptions C97_agree_partial.

Example C97_agree_partial_example : wellFormed 2 [3; 7]%nat [-3; 4] [2; 0; 4] [0; 0; 0; 0] /\ diagonalHessians 2 [2; 0; 4] /\
  diagonal [-3; 4] [2; 0; 4] = Some [(-3, 2); (4, 4)] /\ Forall (fun t => 0 < snd t + 1) [(-3, 2); (4, 4)] /\
  exists sc sc', evaluateCompleteND (checked [1; -4 # 5]) 0 1 [0; 0; 0; 0] [3; 7]%nat [-3; 4] [2; 0; 4] = Some sc /\
    evaluateComplete 0 1 [3; 7]%nat [(-3, 2); (4, 4)] = Some sc'.
Proof.
  split; [repeat split|]. split.
  { intros r c Hr Hc Ne. assert (r = 0 /\ c = 1 \/ r = 1 /\ c = 0)%nat as [(-> & ->)|(-> & ->)] by lia; reflexivity. }
  split; [vm_compute; reflexivity|]. split; [repeat constructor|].
  eexists. eexists. split; vm_compute; reflexivity.
Qed.

(** If an L1 regularisation weight is used, different scores are predicted. Those of the non-decomposable rule evaluation are optimal. *)
Theorem C97_agree_refuted : exists (dsysv : solver) (l1 : Q) (gradients hessians tmp : list Q) (statistics : list tuple) (sc sc' : scores),
  wellFormed 1 [0%nat] gradients hessians tmp /\ validSolver dsysv /\ 0 <= l1 /\ diagonalHessians 1 hessians /\
  diagonal gradients hessians = Some statistics /\ Forall (fun t => 0 < snd t) statistics /\
  evaluateCompleteND dsysv l1 0 tmp [0%nat] gradients hessians = Some sc /\
  evaluateComplete l1 0 [0%nat] statistics = Some sc' /\
  Forall2 Qlt (scValues sc') (scValues sc) /\ optimal l1 0 gradients hessians [0%nat] (scValues sc).
Proof. exact agree_refuted. Qed.
Print Assumptions C97_agree_refuted.

(** ** C98: Scores of partial heads minimise the regularised loss function
    Missing: the quality of partial heads corresponds to the objective of other outputs, and the scores of heads with a fixed
    number of outputs are optimal only if these outputs are sorted. *)
(** The outputs above a threshold are selected. The scores that are predicted for them are optimal, if there is no L1 regularisation. However, the quality is calculated as if the scores were predicted for the first outputs. *)
Theorem C98_dynamic_partial : forall (dsysv : solver) (l1 l2 threshold exponent : Q) (n : nat) (tmp gradients hessians : list Q) (sc : scores),
  wellFormed n (seq 0 n) gradients hessians tmp -> (0 < n)%nat -> validSolver dsysv -> 0 <= l1 -> 0 <= l2 ->
  0 < threshold < 1 -> 0 < exponent ->
  evaluateDynamicND dsysv l1 l2 threshold exponent tmp (seq 0 n) gradients hessians = Some sc ->
  exists statistics minimum maximum,
    length statistics = n /\ (forall p, (p < n)%nat -> nth p statistics (0, 0) = (gradientAt gradients p, hessianAt hessians p p)) /\
    isMinimum minimum (map (fun p => Qabs (scoreAt l1 l2 statistics p)) (everyPosition statistics)) /\
    isMaximum maximum (map (fun p => Qabs (scoreAt l1 l2 statistics p)) (everyPosition statistics)) /\
    (forall p, In p (scIndices sc) <-> (p < n)%nat /\
       qualifies minimum maximum exponent (1 - threshold) (Qabs (scoreAt l1 l2 statistics p))) /\
    length (scValues sc) = length (scIndices sc) /\
    scQuality sc == quadratic l1 l2 gradients hessians (seq 0 (length (scIndices sc))) (scValues sc) /\
    (l1 == 0 -> positiveSemidefinite n (regularised l2 hessians) -> optimal l1 l2 gradients hessians (scIndices sc) (scValues sc)).
Proof. exact dynamic_nd. Qed.
Print Assumptions C98_dynamic_partial.

Example C98_dynamic_partial_example : exists dsysv gradients hessians tmp sc, wellFormed 2 (seq 0 2) gradients hessians tmp /\
  validSolver dsysv /\ positiveSemidefinite 2 (regularised 0 hessians) /\
  evaluateDynamicND dsysv 0 0 (1 # 50) 2 tmp (seq 0 2) gradients hessians = Some sc /\ scIndices sc = [1]%nat.
Proof.
  destruct dynamic_quality_refuted as (d & g & h & tmp & sc & H1 & H2 & H3 & H4 & H5 & _).
  exists d, g, h, tmp, sc. auto.
Qed.

(** The outputs with the highest absolute scores are selected. The scores that are predicted for them are optimal, if they are sorted and if there is no L1 regularisation. However, the quality is calculated as if the scores were predicted for the first outputs. *)
Theorem C98_fixed_partial : forall (dsysv : solver) (l1 l2 : Q) (n k : nat) (tmp gradients hessians : list Q) (statistics : list tuple)
         (sorted : list (nat * Q)) (sc : scores),
  length gradients = n -> length hessians = triangularNumber n -> length tmp = (k * k)%nat -> validSolver dsysv -> 0 <= l1 -> 0 <= l2 ->
  diagonal gradients hessians = Some statistics -> partialSort k (outputWiseScores l1 l2 statistics) sorted ->
  evaluateFixedND dsysv l1 l2 tmp k (seq 0 n) gradients hessians sorted = Some sc ->
  length (scIndices sc) = k /\ NoDup (scIndices sc) /\ Forall (fun p => p < n)%nat (scIndices sc) /\
  (forall p o, In p (scIndices sc) -> (o < n)%nat -> ~ In o (scIndices sc) ->
     Qabs (scoreAt l1 l2 statistics o) <= Qabs (scoreAt l1 l2 statistics p)) /\
  length (scValues sc) = k /\ scQuality sc == quadratic l1 l2 gradients hessians (seq 0 k) (scValues sc) /\
  (l1 == 0 -> positiveSemidefinite n (regularised l2 hessians) -> StronglySorted lt (scIndices sc) ->
   optimal l1 l2 gradients hessians (scIndices sc) (scValues sc)).
Proof. exact fixed_nd. Qed.
Print Assumptions C98_fixed_partial.

Example C98_fixed_partial_example : diagonal [2; 3] [2; 1; 2] = Some [(2, 2); (3, 2)] /\
  partialSort 1 (outputWiseScores 0 0 [(2, 2); (3, 2)]) [(1%nat, scoreAt 0 0 [(2, 2); (3, 2)] 1); (0%nat, scoreAt 0 0 [(2, 2); (3, 2)] 0)] /\
  exists sc, evaluateFixedND (checked [-3 # 2]) 0 0 [0] 1 (seq 0 2) [2; 3] [2; 1; 2]
    [(1%nat, scoreAt 0 0 [(2, 2); (3, 2)] 1); (0%nat, scoreAt 0 0 [(2, 2); (3, 2)] 0)] = Some sc /\
    scIndices sc = [1]%nat /\ StronglySorted lt (scIndices sc).
Proof.
  split; [vm_compute; reflexivity|]. split.
  { split; [apply perm_swap|]. split; [simpl; lia|]. split; [repeat constructor|]. simpl. repeat constructor. vm_compute. discriminate. }
  eexists. split; [vm_compute; reflexivity|]. split; [reflexivity|repeat constructor].
Qed.

(** The quality of a head that reduces the loss suggests that it increases the loss. *)
Theorem C98_quality_refuted : exists (dsysv : solver) (gradients hessians tmp : list Q) (sc : scores),
  wellFormed 2 [0; 1]%nat gradients hessians tmp /\ validSolver dsysv /\ positiveSemidefinite 2 (regularised 0 hessians) /\
  evaluateDynamicND dsysv 0 0 (1 # 50) 2 tmp [0; 1]%nat gradients hessians = Some sc /\
  scIndices sc = [1%nat] /\ optimal 0 0 gradients hessians [1%nat] (scValues sc) /\
  quadratic 0 0 gradients hessians [1%nat] (scValues sc) < 0 < scQuality sc.
Proof. exact dynamic_quality_refuted. Qed.
Print Assumptions C98_quality_refuted.

(** A head with a fixed number of outputs uses the Hessians of other outputs and is worse than predicting zeros. *)
Theorem C98_scores_refuted : exists (dsysv : solver) (gradients hessians tmp : list Q) (statistics : list tuple) (sorted : list (nat * Q)) (sc : scores),
  length gradients = 3%nat /\ length hessians = triangularNumber 3 /\ length tmp = 4%nat /\ validSolver dsysv /\
  positiveSemidefinite 3 (regularised 0 hessians) /\ diagonal gradients hessians = Some statistics /\
  partialSort 2 (outputWiseScores 0 0 statistics) sorted /\
  evaluateFixedND dsysv 0 0 tmp 2 [0; 1; 2]%nat gradients hessians sorted = Some sc /\
  scIndices sc = [2; 0]%nat /\
  quadratic 0 0 gradients hessians [2; 0]%nat [0; 0] < quadratic 0 0 gradients hessians [2; 0]%nat (scValues sc).
Proof. exact fixed_scores_refuted. Qed.
Print Assumptions C98_scores_refuted.
