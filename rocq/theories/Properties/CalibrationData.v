(** Properties of the data calibration models are fitted to. *)
From Coq Require Import ZArith QArith Arith List Bool Lia Lqa Sorted Permutation.
From Verif Require Import Lib.Arr Model.Labels Model.Isotonic Model.Serialization Model.CalibrationData Model.Floats.
From Verif Require Import Spec.Labels Spec.CalibrationData Spec.Floats Proofs.CalibrationSparse.
Import ListNotations.
Open Scope nat_scope.

(** ** C125: Calibration models are fitted to one observation per example *)

(** For each label, there is one bin for each calibration example, in the order of the examples. It pairs the probability that
    results from the score with the ground truth. *)
Theorem C125_marginal : forall (V P : Type) (zero one : P) (f : nat -> V -> P) (indices : list nat) (n numLabels : nat)
         (labels : list (list bool)) (scores : list (list V)),
    has_shape n numLabels labels -> has_shape n numLabels scores -> Forall (fun e => e < n) indices ->
    exists m, extractMarginalDense zero one f indices numLabels labels scores (calCreate numLabels) = Some m /\
      length m = numLabels /\
      forall j bins, nth_error m j = Some bins ->
        Forall2 (marginal_observation zero one f labels scores j) indices bins.
Proof. exact C125_marginal_lemma. Qed.
Print Assumptions C125_marginal.

(* Two out of three examples, two labels *)
Example C125_marginal_example :
  let labels := [[true; false]; [false; false]; [false; true]] in
  let scores := [[10; 11]; [20; 21]; [30; 31]] in
  has_shape 3 2 labels /\ has_shape 3 2 scores /\ Forall (fun e => e < 3) [2; 0] /\
  extractMarginalDense 0 1 (fun j s => s + 100 * j) [2; 0] 2 labels scores (calCreate 2) =
    Some [[(30, 0); (10, 1)]; [(131, 1); (111, 0)]].
Proof. intros labels scores. repeat split; repeat constructor. Qed.

(** The representation of labels is irrelevant. *)
Theorem C125_marginal_csr : forall (V P : Type) (zero one : P) (f : nat -> V -> P) (indices : list nat) (n numLabels : nat)
         (labels : list (list bool)) (scores : list (list V)) (csrIndices indptr : list nat),
    has_shape n numLabels labels -> Forall (fun e => e < n) indices ->
    csr_represents csrIndices indptr labels ->
    extractMarginalCsr zero one f indices numLabels csrIndices indptr scores (calCreate numLabels) =
    extractMarginalDense zero one f indices numLabels labels scores (calCreate numLabels).
Proof. exact C125_marginal_csr_lemma. Qed.
Print Assumptions C125_marginal_csr.

(* The labels of the previous example *)
Example C125_marginal_csr_example :
  let labels := [[true; false]; [false; false]; [false; true]] in
  let scores := [[10; 11]; [20; 21]; [30; 31]] in
  has_shape 3 2 labels /\ Forall (fun e => e < 3) [2; 0] /\ csr_represents [0; 1] [0; 1; 1; 2] labels /\
  extractMarginalCsr 0 1 (fun j s => s + 100 * j) [2; 0] 2 [0; 1] [0; 1; 1; 2] scores (calCreate 2) =
    Some [[(30, 0); (10, 1)]; [(131, 1); (111, 0)]].
Proof.
  intros labels scores. split; [repeat split; repeat constructor|]. split; [repeat constructor|]. split; [|reflexivity].
  intros r row E. destruct r as [|[|[|r]]]; [injection E as <- ..|destruct r; discriminate].
  - exists 0, 1, [0]. split; [reflexivity|]. split; [reflexivity|]. split; [cbn; lia|]. split; [reflexivity|].
    split; [repeat constructor|]. intros [|[|[|j]]]; cbn [nth_error In]; split; intros X;
      first [discriminate|reflexivity|left; reflexivity|destruct X as [X|[]]; discriminate].
  - exists 1, 1, []. split; [reflexivity|]. split; [reflexivity|]. split; [cbn; lia|]. split; [reflexivity|].
    split; [repeat constructor|]. intros [|[|[|j]]]; cbn [nth_error In]; split; intros X;
      first [discriminate|destruct X].
  - exists 1, 2, [1]. split; [reflexivity|]. split; [reflexivity|]. split; [cbn; lia|]. split; [reflexivity|].
    split; [repeat constructor|]. intros [|[|[|j]]]; cbn [nth_error In]; split; intros X;
      first [discriminate|reflexivity|left; reflexivity|destruct X as [X|[]]; discriminate].
Qed.

(** For each label vector, there is one bin for each calibration example. It pairs the probability of the label vector with the
    outcome of the comparison with the labels of the example (see C76). Scores may be dense or sparse. *)
Theorem C125_joint : forall (V P : Type) (zero one : P) (g : nat -> list nat -> V -> P) (indices : list nat) (n numLabels : nat)
         (labels : list (list bool)) (scores : list V) (labelVectors : list (list nat)),
    has_shape n numLabels labels -> length scores = n -> Forall (fun e => e < n) indices ->
    exists m, extractJointDense zero one g indices labels scores labelVectors (calCreate (length labelVectors)) = Some m /\
      length m = length labelVectors /\
      forall i labelVector bins, nth_error labelVectors i = Some labelVector -> nth_error m i = Some bins ->
        Forall2 (joint_observation zero one g labels scores i labelVector) indices bins.
Proof. exact C125_joint_lemma. Qed.
Print Assumptions C125_joint.

(* Two label vectors, one of which occurs among the calibration examples *)
Example C125_joint_example :
  let labels := [[true; false]; [false; false]; [false; true]] in
  has_shape 3 2 labels /\ length [10; 20; 30] = 3 /\ Forall (fun e => e < 3) [2; 0] /\
  extractJointDense 0 1 (fun i lv s => s + i) [2; 0] labels [10; 20; 30] [[0]; [0; 1]] (calCreate 2) =
    Some [[(30, 0); (10, 1)]; [(31, 0); (11, 0)]].
Proof. intros labels. repeat split; repeat constructor. Qed.

(** The representation of labels is irrelevant. *)
Theorem C125_joint_csr : forall (V P : Type) (zero one : P) (g : nat -> list nat -> V -> P) (indices : list nat) (n numLabels : nat)
         (labels : list (list bool)) (scores : list V) (labelVectors : list (list nat)) (csrIndices indptr : list nat),
    has_shape n numLabels labels -> Forall (fun e => e < n) indices ->
    csr_represents csrIndices indptr labels ->
    extractJointCsr zero one g indices csrIndices indptr scores labelVectors (calCreate (length labelVectors)) =
    extractJointDense zero one g indices labels scores labelVectors (calCreate (length labelVectors)).
Proof. exact C125_joint_csr_lemma. Qed.
Print Assumptions C125_joint_csr.

(* Examples with several relevant labels *)
Example C125_joint_csr_example :
  let labels := [[true; false; true]; [false; true; true]] in
  has_shape 2 3 labels /\ Forall (fun e => e < 2) [1; 0; 1] /\ csr_represents [0; 2; 1; 2] [0; 2; 4] labels /\
  extractJointCsr 0 1 (fun i lv s => s + i) [1; 0; 1] [0; 2; 1; 2] [0; 2; 4] [10; 20] [[1; 2]] (calCreate 1) =
    Some [[(20, 1); (10, 0); (20, 1)]].
Proof.
  intros labels. split; [repeat split; repeat constructor|]. split; [repeat constructor|]. split; [|reflexivity].
  intros r row E. destruct r as [|[|r]]; [injection E as <- ..|destruct r; discriminate].
  - exists 0, 2, [0; 2]. split; [reflexivity|]. split; [reflexivity|]. split; [cbn; lia|]. split; [reflexivity|].
    split; [repeat constructor|]. intros [|[|[|[|j]]]]; cbn [nth_error In]; split; intros X;
      first [discriminate|reflexivity|left; reflexivity|right; left; reflexivity|
             destruct X as [X|[X|[]]]; discriminate].
  - exists 2, 4, [1; 2]. split; [reflexivity|]. split; [reflexivity|]. split; [cbn; lia|]. split; [reflexivity|].
    split; [repeat constructor|]. intros [|[|[|[|j]]]]; cbn [nth_error In]; split; intros X;
      first [discriminate|reflexivity|left; reflexivity|right; left; reflexivity|
             destruct X as [X|[X|[]]]; discriminate].
Qed.

(** ** C126: The data calibration models are fitted to does not depend on the representation of scores *)

(** The bins that are extracted from sparse scores: one for each score that is stored and a single one for all the missing
    scores, whose threshold is zero. Missing: the threshold should be the probability that results from a score of zero. *)
Theorem C126_dense_labels_partial : forall (V : Type) (f : nat -> V -> option Q) (indices : list nat) (n numLabels : nat) (labels : list (list bool))
         (scores : list (list (nat * V))),
    has_shape n numLabels labels -> length scores = n -> Forall (fun e => e < n) indices ->
    exists m, extractSparseDense f indices numLabels labels scores (calCreate numLabels) = Some m /\
      length m = numLabels /\
      forall j row, nth_error m j = Some row -> exists p rest, row = (Some 0%Q, p) :: rest /\
        Forall2 (sparse_observation (Some 0%Q) (Some 1%Q) f labels scores j) (with_entry scores j indices) rest /\
        (without_entry scores j indices = [] -> p = Some 0%Q) /\
        relevant_fraction labels j (without_entry scores j indices) p.
Proof. exact C126_dense_labels_lemma. Qed.
Print Assumptions C126_dense_labels_partial.

(* Three examples, one score is missing *)
Example C126_dense_labels_partial_example :
  let labels := [[true]; [true]; [false]] in
  let scores := [[(0, 3%Q)]; []; [(0, 5%Q)]] in
  has_shape 3 1 labels /\ length scores = 3 /\ Forall (fun e => e < 3) [0; 1; 2] /\
  with_entry scores 0 [0; 1; 2] = [0; 2] /\ without_entry scores 0 [0; 1; 2] = [1] /\
  extractSparseDense (fun _ s => Some s) [0; 1; 2] 1 labels scores (calCreate 1) =
    Some [[(Some 0, Some 1); (Some 3, Some 1); (Some 5, Some 0)]]%Q.
Proof. intros labels scores. repeat split; repeat constructor. Qed.

(** The same for labels in the CSR format. Missing: the threshold, and the probability if no scores are missing. *)
Theorem C126_csr_labels_partial : forall (V : Type) (f : nat -> V -> option Q) (indices : list nat) (n numLabels : nat) (labels : list (list bool))
         (scores : list (list (nat * V))) (csrIndices indptr : list nat),
    has_shape n numLabels labels -> length scores = n -> Forall (sparse_row numLabels) scores ->
    Forall (fun e => e < n) indices -> csr_represents csrIndices indptr labels ->
    exists m, extractSparseCsr f indices numLabels csrIndices indptr scores (calCreate numLabels) = Some m /\
      length m = numLabels /\
      forall j row, nth_error m j = Some row -> exists p rest, row = (Some 0%Q, p) :: rest /\
        Forall2 (sparse_observation (Some 0%Q) (Some 1%Q) f labels scores j) (with_entry scores j indices) rest /\
        (without_entry scores j indices = [] -> p = None) /\
        relevant_fraction labels j (without_entry scores j indices) p.
Proof. exact C126_csr_labels_lemma. Qed.
Print Assumptions C126_csr_labels_partial.

(* Three examples, two scores are missing *)
Example C126_csr_labels_partial_example :
  let labels := [[true]; [true]; [false]] in
  let scores := [[]; [(0, 3%Q)]; []] in
  has_shape 3 1 labels /\ length scores = 3 /\ Forall (sparse_row 1) scores /\ Forall (fun e => e < 3) [0; 1; 2] /\
  csr_represents [0; 0] [0; 1; 2; 2] labels /\
  extractSparseCsr (fun _ s => Some s) [0; 1; 2] 1 [0; 0] [0; 1; 2; 2] scores (calCreate 1) =
    Some [[(Some 0, Some (1 # 2)); (Some 3, Some 1)]]%Q.
Proof.
  intros labels scores. split; [repeat split; repeat constructor|]. split; [reflexivity|].
  split; [repeat constructor; intros []|]. split; [repeat constructor|]. split; [|reflexivity].
  intros r row E. destruct r as [|[|[|r]]]; [injection E as <- ..|destruct r; discriminate].
  - exists 0, 1, [0]. split; [reflexivity|]. split; [reflexivity|]. split; [cbn; lia|]. split; [reflexivity|].
    split; [repeat constructor|]. intros [|[|j]]; cbn [nth_error In]; split; intros X;
      first [discriminate|reflexivity|left; reflexivity|destruct X as [X|[]]; discriminate].
  - exists 1, 2, [0]. split; [reflexivity|]. split; [reflexivity|]. split; [cbn; lia|]. split; [reflexivity|].
    split; [repeat constructor|]. intros [|[|j]]; cbn [nth_error In]; split; intros X;
      first [discriminate|reflexivity|left; reflexivity|destruct X as [X|[]]; discriminate].
  - exists 2, 2, []. split; [reflexivity|]. split; [reflexivity|]. split; [cbn; lia|]. split; [reflexivity|].
    split; [repeat constructor|]. intros [|[|j]]; cbn [nth_error In]; split; intros X; first [discriminate|destruct X].
Qed.

(** A bin of the sparse variant has a threshold that is not the probability of any example. *)
Theorem C126_scores_refuted : exists (f : nat -> Q -> option Q) indices labels sparse dense m m' threshold probability,
    has_shape 1 1 labels /\ Forall2 same_values sparse dense /\ Forall (sparse_row 1) sparse /\
    extractMarginalDense (Some 0%Q) (Some 1%Q) f indices 1 labels dense (calCreate 1) = Some [m] /\
    extractSparseDense f indices 1 labels sparse (calCreate 1) = Some [m'] /\
    In (Some threshold, probability) m' /\
    forall t p, In (Some t, p) m -> ~ (t == threshold)%Q.
Proof. exact C126_refuted_scores_lemma. Qed.
Print Assumptions C126_scores_refuted.
(** If no score is missing, the superfluous bin is assigned a probability that depends on the representation of labels. It is not a
    number in the case of the CSR format. *)
Theorem C126_labels_refuted : exists (f : nat -> Q -> option Q) indices labels csrIndices indptr scores m m',
    has_shape 1 1 labels /\ csr_represents csrIndices indptr labels /\ Forall (sparse_row 1) scores /\
    extractSparseDense f indices 1 labels scores (calCreate 1) = Some m /\
    extractSparseCsr f indices 1 csrIndices indptr scores (calCreate 1) = Some m' /\
    m = [[(Some 0%Q, Some 0%Q); (Some (3 # 4)%Q, Some 1%Q)]] /\
    m' = [[(Some 0%Q, None); (Some (3 # 4)%Q, Some 1%Q)]].
Proof. exact C126_refuted_labels_lemma. Qed.
Print Assumptions C126_labels_refuted.

(** ** C127: Calibration models can be fitted to any data set *)

(** If there is at least one calibration example, a model is fitted and its predictions are probabilities. Missing: empty sets of
    calibration examples. *)
Theorem C127_marginal_partial : forall (V : Type) (sort : list (Q * Q) -> list (Q * Q)) (f : nat -> V -> Q) (indices : list nat) (n numLabels : nat)
         (labels : list (list bool)) (scores : list (list V)),
    sorts sort -> (forall j s, (0 <= f j s <= 1)%Q) ->
    has_shape n numLabels labels -> has_shape n numLabels scores -> Forall (fun e => e < n) indices ->
    indices <> [] ->
    exists out, fitMarginal sort f indices numLabels labels scores = Some out /\ length out = numLabels /\
      forall j bins p, nth_error out j = Some bins -> (0 < p <= 1)%Q ->
        exists v, calibrateProbability bins p = Some (Some v) /\ (0 <= v <= 1)%Q.
Proof. exact C127_marginal_lemma. Qed.
Print Assumptions C127_marginal_partial.

(* Two examples *)
Example C127_marginal_partial_example :
  let labels := [[true]; [false]] in
  let scores := [[3 # 4]; [1 # 4]]%Q in
  let f := fun (_ : nat) s => if Qlt_le_dec s 0 then 0%Q else if Qlt_le_dec 1 s then 1%Q else s in
  sorts insertion_sort /\
  (forall j s, (0 <= f j s <= 1)%Q) /\ has_shape 2 1 labels /\ has_shape 2 1 scores /\
  Forall (fun e => e < 2) [0; 1] /\ [0; 1] <> [] /\
  fitMarginal insertion_sort f [0; 1] 1 labels scores = Some [[(1 # 4, 0); (3 # 4, 1)]]%Q.
Proof.
  intros labels scores f. split; [exact insertion_sorts|]. split; [|split; [|split; [|split; [|split; [discriminate|vm_compute; reflexivity]]]]].
  - intros j s. unfold f. destruct (Qlt_le_dec s 0); [lra|]. destruct (Qlt_le_dec 1 s); lra.
  - repeat constructor.
  - repeat constructor.
  - repeat constructor.
Qed.

(** The same for joint probabilities. *)
Theorem C127_joint_partial : forall (V : Type) (sort : list (Q * Q) -> list (Q * Q)) (g : nat -> list nat -> V -> Q) (indices : list nat)
         (n numLabels : nat) (labels : list (list bool)) (scores : list V) (labelVectors : list (list nat)),
    sorts sort -> (forall i labelVector s, (0 <= g i labelVector s <= 1)%Q) ->
    has_shape n numLabels labels -> length scores = n -> Forall (fun e => e < n) indices ->
    indices <> [] ->
    exists out, fitJoint sort g indices labels scores labelVectors = Some out /\ length out = length labelVectors /\
      forall i bins p, nth_error out i = Some bins -> (0 < p <= 1)%Q ->
        exists v, calibrateProbability bins p = Some (Some v) /\ (0 <= v <= 1)%Q.
Proof. exact C127_joint_lemma. Qed.
Print Assumptions C127_joint_partial.

(* Two examples, two label vectors *)
Example C127_joint_partial_example :
  let labels := [[true]; [false]] in
  let g := fun (i : nat) (_ : list nat) (s : bool) => if s then 1%Q else (1 # 2)%Q in
  sorts insertion_sort /\ (forall i lv s, (0 <= g i lv s <= 1)%Q) /\ has_shape 2 1 labels /\
  Forall (fun e => e < 2) [1; 0] /\ [1; 0] <> [] /\
  fitJoint insertion_sort g [1; 0] labels [true; false] [[0]; [0]] =
    Some [[(1 # 2, 0); (1, 1)]; [(1 # 2, 0); (1, 1)]]%Q.
Proof.
  intros labels g. split; [exact insertion_sorts|]. split; [|split; [|split; [|split; [discriminate|vm_compute; reflexivity]]]].
  - intros i lv s. unfold g. destruct s; lra.
  - repeat constructor.
  - repeat constructor.
Qed.

(** For small data sets, the holdout set is empty and fitting a model to it results in undefined behaviour. *)
Theorem C127_refuted : exists n size numTraining numHoldout,
    (1 <= n < 2 ^ 32)%Z /\ isFloat32 size /\ (0 < size < one)%Z /\
    holdoutSizes (Finite size) n = Some (numTraining, numHoldout) /\
    forall (V : Type) (sort : list (Q * Q) -> list (Q * Q)) (f : nat -> V -> Q) (numLabels : nat)
           (labels : list (list bool)) (scores : list (list V)) (first second : list nat),
      sorts sort -> 0 < numLabels -> Z.of_nat (length second) = numHoldout ->
      fitMarginal sort f (calibrationExamples true first second) numLabels labels scores = None.
Proof. exact C127_refuted_lemma. Qed.
Print Assumptions C127_refuted.
