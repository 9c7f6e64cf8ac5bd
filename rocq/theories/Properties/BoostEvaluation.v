(** Properties of the evaluation of rules by boosting algorithms with decomposable loss functions. *)
From Coq Require Import QArith Qabs Reals Qreals List Bool Arith Permutation Sorted Lia.
From Verif Require Import Lib.Arr Model.BoostEvaluation Spec.BoostEvaluation Proofs.BoostEvaluation.
Import ListNotations.
Open Scope Q_scope.

(** ** C54: Optimal scores under regularisation
    Missing: scores are not optimal if L1 regularisation is used. *)
Definition statistics54 : list tuple := [(2, 1); (-3, 1 # 2); (0, 1)].
(** Without L1 regularisation, the predicted scores minimise the objective, the quality is its value and never positive. *)
Theorem C54_optimal_partial : forall (l2 : Q) (indices : list nat) (statistics : list tuple),
  Forall (fun t => 0 < snd t + l2) statistics ->
  exists sc, evaluateComplete 0 l2 indices statistics = Some sc /\ scIndices sc = indices /\
    length (scValues sc) = length statistics /\
    scQuality sc == headObjective 0 l2 statistics (everyPosition statistics) (scValues sc) /\ scQuality sc <= 0 /\
    (forall values, length values = length statistics ->
       scQuality sc <= headObjective 0 l2 statistics (everyPosition statistics) values).
Proof. exact complete_optimal. Qed.
Print Assumptions C54_optimal_partial.

Example C54_optimal_partial_example :
  Forall (fun t => 0 < snd t + 1) statistics54 /\
  exists sc, evaluateComplete 0 1 [0; 1; 2]%nat statistics54 = Some sc /\ Forall2 Qeq (scValues sc) [-1; 2; 0] /\ scQuality sc == -4.
Proof. split; [repeat constructor|]. eexists. split; [vm_compute; reflexivity|]. split; [repeat constructor|reflexivity]. Qed.

(** The quality is the value of the objective for the predicted scores for all weights. *)
Theorem C54_quality_partial : forall (l1 l2 : Q) (indices : list nat) (statistics : list tuple),
  exists sc, evaluateComplete l1 l2 indices statistics = Some sc /\ scIndices sc = indices /\
    length (scValues sc) = length statistics /\
    scQuality sc == headObjective l1 l2 statistics (everyPosition statistics) (scValues sc).
Proof. exact complete_quality. Qed.
Print Assumptions C54_quality_partial.

Example C54_quality_partial_example :
  exists sc, evaluateComplete 1 1 [0; 1; 2]%nat statistics54 = Some sc /\
    scQuality sc == headObjective 1 1 statistics54 (everyPosition statistics54) (scValues sc) /\ ~ scQuality sc == 0.
Proof. eexists. split; [vm_compute; reflexivity|]. split; [vm_compute; reflexivity|discriminate]. Qed.

(** The predicted score is never optimal if the L1 weight is positive, unless the gradient is zero. In contrast, the sum of the gradient and the weight should have been reduced (see [softThreshold]). *)
Theorem C54_never_optimal_partial : forall (l1 l2 gradient hessian : Q),
  0 < l1 -> ~ gradient == 0 -> 0 < hessian + l2 ->
  objective l1 l2 (gradient, hessian) (softThreshold l1 l2 gradient hessian)
  < objective l1 l2 (gradient, hessian) (calculateOutputWiseScore l1 l2 (gradient, hessian)).
Proof. exact never_optimal. Qed.
Print Assumptions C54_never_optimal_partial.

Example C54_never_optimal_partial_example : 0 < 1 /\ ~ -3 == 0 /\ 0 < 1 # 2 /\
  softThreshold 1 0 (-3) (1 # 2) == 4 /\ calculateOutputWiseScore 1 0 (-3, 1 # 2) == 8.
Proof. repeat split; discriminate. Qed.

(** The predicted scores are not optimal. *)
Theorem C54_scores_refuted : exists l1 l2 indices statistics sc values,
    0 <= l1 /\ 0 <= l2 /\ Forall (fun t => 0 < snd t + l2) statistics /\
    evaluateComplete l1 l2 indices statistics = Some sc /\ length values = length statistics /\
    headObjective l1 l2 statistics (everyPosition statistics) values < scQuality sc.
Proof. exact complete_refuted. Qed.
Print Assumptions C54_scores_refuted.

(** The quality of a rule may be worse than the one of predicting nothing. *)
Theorem C54_positive_refuted : exists l1 l2 indices statistics sc,
    0 <= l1 /\ 0 <= l2 /\ Forall (fun t => 0 < snd t + l2) statistics /\
    evaluateComplete l1 l2 indices statistics = Some sc /\ 0 < scQuality sc.
Proof. exact complete_positive_refuted. Qed.
Print Assumptions C54_positive_refuted.

(** ** C55: Fixed partial heads predict for the strongest outputs *)
Theorem C55_fixed_heads : forall (l1 l2 : Q) (k : nat) (indices : list nat) (statistics : list tuple) (sorted : list (nat * Q)),
  length indices = length statistics -> NoDup indices ->
  partialSort k (outputWiseScores l1 l2 statistics) sorted ->
  exists sc positions, evaluateFixed l1 l2 k indices statistics sorted = Some sc /\
    length positions = k /\ NoDup positions /\ Forall (fun p => p < length statistics)%nat positions /\
    predictsFor l1 l2 indices statistics positions sc /\ NoDup (scIndices sc) /\
    (forall omitted p, (omitted < length statistics)%nat -> ~ In omitted positions -> In p positions ->
       Qabs (scoreAt l1 l2 statistics omitted) <= Qabs (scoreAt l1 l2 statistics p)).
Proof. exact evaluateFixed_spec. Qed.
Print Assumptions C55_fixed_heads.

Example C55_fixed_heads_example :
  let sorted := [(1%nat, 6); (0%nat, -2); (2%nat, 0)] in
  partialSort 2 (outputWiseScores 0 0 [(2, 1); (-3, 1 # 2); (0, 1)]) [(1%nat, 6#1); (0%nat, -2#1); (2%nat, 0#1)] /\
  NoDup [3; 5; 7]%nat /\
  exists sc, evaluateFixed 0 0 2 [3; 5; 7]%nat [(2, 1); (-3, 1 # 2); (0, 1)] sorted = Some sc /\ scIndices sc = [5; 3]%nat.
Proof.
  cbv zeta. split; [|split].
  - split; [|split; [|split]].
    + vm_compute. apply perm_swap.
    + simpl. lia.
    + repeat constructor. unfold precedes. discriminate.
    + repeat constructor; unfold precedes; discriminate.
  - repeat constructor; simpl; intuition discriminate.
  - eexists. split; [vm_compute; reflexivity|reflexivity].
Qed.

(** ** C56: Dynamic partial heads predict exactly the outputs above threshold *)
Theorem C56_dynamic_heads : forall (l1 l2 threshold exponent : Q) (indices : list nat) (statistics : list tuple),
  statistics <> [] -> length indices = length statistics -> 0 < threshold < 1 -> 0 < exponent ->
  exists sc positions minimum maximum, evaluateDynamic l1 l2 threshold exponent indices statistics = Some sc /\
    predictsFor l1 l2 indices statistics positions sc /\ StronglySorted lt positions /\
    isMinimum minimum (map (fun p => Qabs (scoreAt l1 l2 statistics p)) (everyPosition statistics)) /\
    isMaximum maximum (map (fun p => Qabs (scoreAt l1 l2 statistics p)) (everyPosition statistics)) /\
    (forall p, In p positions <-> (p < length statistics)%nat /\
       qualifies minimum maximum exponent (1 - threshold) (Qabs (scoreAt l1 l2 statistics p))) /\
    (forall p, (p < length statistics)%nat -> Qabs (scoreAt l1 l2 statistics p) == maximum -> In p positions) /\
    scIndices sc <> [].
Proof. exact evaluateDynamic_spec. Qed.
Print Assumptions C56_dynamic_heads.

(** Smaller thresholds and larger exponents result in fewer outputs. *)
Theorem C56_monotone : forall (l1 l2 threshold threshold' exponent exponent' : Q) (indices : list nat) (statistics : list tuple) (sc sc' : scores),
  statistics <> [] -> length indices = length statistics -> 0 < threshold -> threshold <= threshold' -> threshold' < 1 ->
  0 < exponent' -> exponent' <= exponent ->
  evaluateDynamic l1 l2 threshold exponent indices statistics = Some sc ->
  evaluateDynamic l1 l2 threshold' exponent' indices statistics = Some sc' ->
  incl (scIndices sc) (scIndices sc').
Proof. exact dynamic_monotone. Qed.
Print Assumptions C56_monotone.

Example C56_example : [(2, 1); (-3, 1 # 2); (0, 1)] <> [] /\ 0 < 1 # 5 < 1 /\ 0 < 2 /\
  qualifies 0 10 2 (1 - (1 # 5)) 9 /\ ~ qualifies 0 10 2 (1 - (1 # 5)) 8.
Proof.
  split; [discriminate|]. split; [split; reflexivity|]. split; [reflexivity|].
  assert (E : forall x, 0 < x -> Rpower (Q2R x) (Q2R 2) = Q2R (x * x)).
  { intros x Hx. apply Qlt_Rlt in Hx. replace (Q2R 0) with 0%R in Hx by (unfold Q2R; simpl; rewrite Rmult_0_l; auto).
    rewrite Q2R_mult. replace (Q2R 2) with (1 + 1)%R by (unfold Q2R; simpl; field). rewrite Rpower_plus, Rpower_1; auto. }
  split.
  - right. split; [reflexivity|]. rewrite E by reflexivity. apply Qle_Rle. discriminate.
  - intros [H|(_ & H)]; [discriminate|]. rewrite E in H by reflexivity. apply Rle_Qle in H. apply H. reflexivity.
Qed.

(** ** C91: Partial heads have the best quality
    Missing: heads are selected based on scores instead of qualities. *)
(** The head is the best one if all Hessians are the same, e.g., if the loss function is the squared error, and if there is no L1 regularisation. *)
Theorem C91_single_partial : forall (l2 w : Q) (indices : list nat) (statistics : list tuple),
  statistics <> [] -> length indices = length statistics -> 0 < w -> Forall (fun t => snd t + l2 == w) statistics ->
  exists sc p, evaluateSingle 0 l2 indices statistics = Some sc /\ scIndices sc = [nth p indices 0%nat] /\
    scQuality sc == headObjective 0 l2 statistics [p] (scValues sc) /\
    (forall position value, (position < length statistics)%nat ->
       scQuality sc <= headObjective 0 l2 statistics [position] [value]).
Proof. exact single_best. Qed.
Print Assumptions C91_single_partial.

Example C91_single_partial_example : 0 < 3 /\ Forall (fun t => snd t + 1 == 3) [(2, 2); (-3, 2)] /\
  exists sc, evaluateSingle 0 1 [4; 6]%nat [(2, 2); (-3, 2)] = Some sc /\ scIndices sc = [6]%nat.
Proof. split; [reflexivity|]. split; [repeat constructor|]. eexists. split; [vm_compute; reflexivity|reflexivity]. Qed.

Theorem C91_fixed_partial : forall (l2 w : Q) (k : nat) (indices : list nat) (statistics : list tuple) (sorted : list (nat * Q)),
  length indices = length statistics -> NoDup indices -> 0 < w -> Forall (fun t => snd t + l2 == w) statistics ->
  partialSort k (outputWiseScores 0 l2 statistics) sorted ->
  exists sc, evaluateFixed 0 l2 k indices statistics sorted = Some sc /\ length (scIndices sc) = k /\
    (forall positions values, NoDup positions -> Forall (fun p => p < length statistics)%nat positions ->
       length positions = k -> length values = k ->
       scQuality sc <= headObjective 0 l2 statistics positions values).
Proof. exact fixed_best. Qed.
Print Assumptions C91_fixed_partial.

Example C91_fixed_partial_example :
  partialSort 1 (outputWiseScores 0 1 [(2, 2); (-3, 2)]) (rev (outputWiseScores 0 1 [(2, 2); (-3, 2)])) /\
  exists sc, evaluateFixed 0 1 1 [4; 6]%nat [(2, 2); (-3, 2)] (rev (outputWiseScores 0 1 [(2, 2); (-3, 2)])) = Some sc /\
    scIndices sc = [6]%nat.
Proof.
  split.
  - split; [apply Permutation_rev|]. split; [vm_compute; lia|]. split; [vm_compute; repeat constructor|].
    repeat constructor. unfold precedes. vm_compute. discriminate.
  - eexists. split; [vm_compute; reflexivity|reflexivity].
Qed.

Theorem C91_single_refuted : exists l2 indices statistics sc position value,
    0 <= l2 /\ Forall (fun t => 0 < snd t) statistics /\ length indices = length statistics /\
    evaluateSingle 0 l2 indices statistics = Some sc /\ (position < length statistics)%nat /\
    headObjective 0 l2 statistics [position] [value] < scQuality sc.
Proof. exact single_refuted. Qed.
Print Assumptions C91_single_refuted.

(** ** C92: L1 regularisation makes rules more conservative *)
Theorem C92_refuted : exists l1 l1' l2 gradient hessian,
    0 <= l1 /\ l1 < l1' /\ 0 <= l2 /\ 0 < hessian /\
    Qabs (calculateOutputWiseScore l1 l2 (gradient, hessian)) < Qabs (calculateOutputWiseScore l1' l2 (gradient, hessian)).
Proof. exact conservative_refuted. Qed.
Print Assumptions C92_refuted.

(** Scores are larger than without regularisation whenever the weight has any effect. *)
Theorem C92_inflated_partial : forall (l1 l2 gradient hessian : Q),
  0 < l1 -> l1 < Qabs gradient -> 0 < hessian + l2 ->
  Qabs (calculateOutputWiseScore 0 l2 (gradient, hessian)) < Qabs (calculateOutputWiseScore l1 l2 (gradient, hessian)).
Proof. exact inflated. Qed.
Print Assumptions C92_inflated_partial.

Example C92_inflated_partial_example : 0 < 1 /\ 1 < Qabs (-3) /\ 0 < (1 # 2) + 0 /\
  Qabs (calculateOutputWiseScore 0 0 (-3, 1 # 2)) == 6 /\ Qabs (calculateOutputWiseScore 1 0 (-3, 1 # 2)) == 8.
Proof. repeat split. Qed.

(** L2 regularisation makes rules more conservative. *)
Theorem C92_l2_partial : forall (l1 l2 l2' gradient hessian : Q),
  0 < hessian + l2 -> l2 <= l2' ->
  Qabs (calculateOutputWiseScore l1 l2' (gradient, hessian)) <= Qabs (calculateOutputWiseScore l1 l2 (gradient, hessian)).
Proof. exact l2_shrinks. Qed.
Print Assumptions C92_l2_partial.

Example C92_l2_partial_example : 0 < 1 + 0 /\ 0 <= 1 /\ Qabs (calculateOutputWiseScore 1 1 (-3, 1)) == 2 /\
  Qabs (calculateOutputWiseScore 1 0 (-3, 1)) == 4.
Proof. repeat split. discriminate. Qed.

(** ** C93: The documented criterion selects the outputs of dynamic heads *)
Theorem C93_refuted : exists l1 l2 threshold exponent indices statistics sc p best,
    0 < threshold < 1 /\ 1 <= exponent /\ length indices = length statistics /\ NoDup indices /\
    evaluateDynamic l1 l2 threshold exponent indices statistics = Some sc /\ (p < length statistics)%nat /\
    isMaximum best (map (fun p => Qabs (scoreAt l1 l2 statistics p)) (everyPosition statistics)) /\
    documented exponent threshold (Qabs (scoreAt l1 l2 statistics p)) best /\ ~ In (nth p indices 0%nat) (scIndices sc).
Proof. exact documented_refuted. Qed.
Print Assumptions C93_refuted.
