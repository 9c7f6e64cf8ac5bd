(** Properties of the steps of training a classification model. *)
From Coq Require Import ZArith QArith Arith List Bool Lia.
From Verif Require Import Lib.Arr Model.Refinement Model.Induction Model.Rules Model.Stopping Model.BoostConfig
  Model.Training Spec.Rules Spec.Stopping Spec.Induction Spec.Training Proofs.Training.
Import ListNotations.
Open Scope nat_scope.

(** ** C117: Calibration models are fitted to the scores the model predicts
    Missing: training runs where global pruning limits the number of rules that are used. *)

(** Without global pruning, the scores to which calibration models are fitted are those predicted by the model. *)
Theorem C117_no_pruning_partial :
  forall (X C : Type) (test : list Z * X -> nat -> C -> option (result * C))
    (learn : list Z -> X -> option (srule * list bool) * X)
    (relearn : nat -> list Z -> srule -> option (srule * list bool))
    fuel numExamples default removeUnused sequential x c model scores,
  learns numExamples learn -> relearns numExamples relearn ->
  (forall t m c r c', test t m c = Some (r, c') -> rNumUsed r = 0) ->
  fit test learn relearn fuel numExamples default removeUnused sequential x c = Some (Some (model, scores)) ->
  exists used, rlVisitUsed model = Some used /\ forall e p, nth_error scores e = Some p -> p = predicted used e.
Proof. exact (@fit_all). Qed.
Print Assumptions C117_no_pruning_partial.

(** A default rule that predicts 5, two rules, one iteration of post-optimization that changes their scores. *)
Example C117_no_pruning_partial_example :
  let test := fun (t : list Z * nat) n (cs : list crit) => listTest critTest (mkEnv 0%Z (fun _ => 0%Q)) n cs in
  let learn := fun (_ : list Z) (x : nat) =>
    (Some (if x =? 0 then (([[true; false]], 1%Z), [true; false]) else (([[true; true]; [false; true]], 2%Z), [false; true])),
     x + 1) in
  let relearn := fun (n : nat) (p : list Z) (r : srule) => Some ((fst r, 7 + nth 0 p 0)%Z, coverage 2 (fst r)) in
  exists model used, fit test learn relearn 5 2 (Some 5%Z) true (Some 1) 0 [CSize 3] = Some (Some (model, [17; 29]%Z)) /\
    rlVisitUsed model = Some used /\ map (predicted used) [0; 1] = [17; 29]%Z /\ length used = 3.
Proof.
  eexists. eexists. split; [vm_compute; reflexivity|]. split; [vm_compute; reflexivity|]. split; vm_compute; reflexivity.
Qed.

(** Without sequential post-optimization, the scores differ by the predictions of rules that are not used. *)
Theorem C117_dropped_partial :
  forall (X C : Type) (test : list Z * X -> nat -> C -> option (result * C))
    (learn : list Z -> X -> option (srule * list bool) * X)
    (relearn : nat -> list Z -> srule -> option (srule * list bool))
    fuel numExamples default removeUnused x c model scores,
  learns numExamples learn ->
  (forall t m c r c', test t m c = Some (r, c') -> rNumUsed r <= m) ->
  fit test learn relearn fuel numExamples default removeUnused None x c = Some (Some (model, scores)) ->
  exists used dropped, rlVisitUsed model = Some used /\ length scores = numExamples /\
    forall e p, nth_error scores e = Some p -> p = (predicted used e + predicted dropped e)%Z.
Proof. exact (@fit_dropped). Qed.
Print Assumptions C117_dropped_partial.

(** Post-pruning keeps two out of three rules. *)
Example C117_dropped_partial_example :
  let test := fun (t : list Z * unit) n (cs : list crit) => listTest critTest
    (mkEnv 0%Z (fun e => (inject_Z (nth e (fst t) 0%Z) - 2) * (inject_Z (nth e (fst t) 0%Z) - 2))%Q) n cs in
  let learn := fun (_ : list Z) (x : unit) => (Some (([[true; false]], 1%Z), [true; false]), x) in
  exists model used, fit test learn (fun _ _ _ => None) 5 2 (Some 1%Z) false None tt
      [CSize 4; CPost (Bi [1] [0]) true 1 1 (postInit 1)] = Some (Some (model, [4; 1]%Z)) /\
    rlVisitUsed model = Some used /\ map (predicted used) [0; 1] = [2; 1]%Z /\ length used = 2 /\ rlGetNumRules model = 4.
Proof.
  eexists. eexists. split; [vm_compute; reflexivity|]. split; [vm_compute; reflexivity|].
  split; [vm_compute; reflexivity|]. split; vm_compute; reflexivity.
Qed.

(** The same applies if rules are replaced by sequential post-optimization. *)
Theorem C117_dropped_optimized_partial :
  forall (X C : Type) (test : list Z * X -> nat -> C -> option (result * C))
    (learn : list Z -> X -> option (srule * list bool) * X)
    (relearn : nat -> list Z -> srule -> option (srule * list bool))
    fuel numExamples default removeUnused numIterations x c model scores,
  learns numExamples learn -> relearns numExamples relearn ->
  (forall t m c r c', test t m c = Some (r, c') -> rNumUsed r <= m) ->
  fit test learn relearn fuel numExamples default removeUnused (Some numIterations) x c = Some (Some (model, scores)) ->
  exists used dropped, rlVisitUsed model = Some used /\ length scores = numExamples /\
    forall e p, nth_error scores e = Some p -> p = (predicted used e + predicted dropped e)%Z.
Proof. exact (@fit_dropped_optimized). Qed.
Print Assumptions C117_dropped_optimized_partial.

(** The rules that are not used are replaced as well, unless they are removed. *)
Example C117_dropped_optimized_partial_example :
  let test := fun (t : list Z * unit) n (cs : list crit) => listTest critTest
    (mkEnv 0%Z (fun e => (inject_Z (nth e (fst t) 0%Z) - 2) * (inject_Z (nth e (fst t) 0%Z) - 2))%Q) n cs in
  let learn := fun (_ : list Z) (x : unit) => (Some (([[true; false]], 1%Z), [true; false]), x) in
  let relearn := fun (n : nat) (p : list Z) (r : srule) => Some ((fst r, Z.of_nat n + 3)%Z, coverage 2 (fst r)) in
  exists model used, fit test learn relearn 5 2 (Some 1%Z) false (Some 1) tt
      [CSize 4; CPost (Bi [1] [0]) true 1 1 (postInit 1)] = Some (Some (model, [13; 1]%Z)) /\
    rlVisitUsed model = Some used /\ map (predicted used) [0; 1] = [4; 1]%Z /\ length used = 2 /\ rlGetNumRules model = 4.
Proof.
  eexists. eexists. split; [vm_compute; reflexivity|]. split; [vm_compute; reflexivity|].
  split; [vm_compute; reflexivity|]. split; vm_compute; reflexivity.
Qed.

(** If post-pruning drops a rule, the scores to which calibration models are fitted still include its prediction, although it has even been removed from the model. *)
Theorem C117_unused_rules_refuted : let test := fun (t : list Z * unit) n => listTest critTest
    (mkEnv 0%Z (fun e => (inject_Z (nth e (fst t) 0%Z) - 1) * (inject_Z (nth e (fst t) 0%Z) - 1))%Q) n in
  let learn := fun (_ : list Z) (x : unit) => (Some (([[true]], 1%Z), [true]), x) in
  learns 1 learn /\
  exists model scores used,
    fit test learn (fun _ _ _ => None) 5 1 None true None tt [CSize 2; CPost (Single [0]) true 1 1 (postInit 1)]
      = Some (Some (model, scores)) /\
    rlVisitUsed model = Some used /\ nth_error scores 0 = Some 2%Z /\ predicted used 0 = 1%Z.
Proof. exact fit_refuted. Qed.
Print Assumptions C117_unused_rules_refuted.

(** ** C118: Rule pruning has no effect without instance sampling
    Missing: it has an effect if a holdout set is used. *)
(** Without a holdout set, rules are not pruned. *)
Theorem C118_single_partial : forall k pruning recalculate quality indices conditions mask,
  pruneWithoutSampling k pruning recalculate quality (Single indices) conditions mask = Some conditions.
Proof. exact prune_single. Qed.
Print Assumptions C118_single_partial.

Example C118_single_partial_example :
  pruneWithoutSampling Boosting true true (fun l => Z.of_nat (length l)) (Single [0; 1; 2])
    [[true; true; false]; [true; false; true]] (coverage 3 [[true; true; false]; [true; false; true]])
  = Some [[true; true; false]; [true; false; true]].
Proof. vm_compute. reflexivity. Qed.

(** With a holdout set, all conditions except for the first one are removed from each rule, regardless of the data. *)
Theorem C118_holdout_partial : forall k recalculate quality numExamples first second (conditions : list cond),
  disjoint_split numExamples first second -> second <> [] ->
  (forall c, In c conditions -> length c = numExamples) -> 1 < length conditions ->
  pruneWithoutSampling k true recalculate quality (Bi first second) conditions (coverage numExamples conditions)
    = Some (firstn 1 conditions).
Proof. exact prune_bi. Qed.
Print Assumptions C118_holdout_partial.

Example C118_holdout_partial_example :
  disjoint_split 4 [3; 0] [1; 2] /\
  pruneWithoutSampling SeCo true false (fun l => Z.of_nat (length l)) (Bi [3; 0] [1; 2])
    [[true; true; false; true]; [true; false; true; true]; [false; true; true; true]]
    (coverage 4 [[true; true; false; true]; [true; false; true; true]; [false; true; true; true]])
  = Some [[true; true; false; true]].
Proof.
  split; [|vm_compute; reflexivity].
  split; [repeat constructor; simpl; intuition discriminate|]. intros e. simpl. lia.
Qed.

(** With a holdout set, rules are pruned without instance sampling, whatever the quality of their predictions is. *)
Theorem C118_holdout_refuted : exists first second conditions, disjoint_split 3 first second /\ (forall c, In c conditions -> length c = 3) /\
    exists conditions', conditions' <> conditions /\ forall quality,
      pruneWithoutSampling Boosting true true quality (Bi first second) conditions (coverage 3 conditions)
        = Some conditions'.
Proof. exact prune_refuted. Qed.
Print Assumptions C118_holdout_refuted.

(** ** C119: Label vectors are available if they are needed *)
(** Neither training nor prediction fails, because the label vectors in the training data are not known. *)
Theorem C119_label_vectors_available : forall c, let stored := labelVectorsStored c in
  createJointCalibrator (lcLoss c) stored (lcJoint c) <> Throws /\
  createBinaryPredictor (lcLoss c) stored (lcBinary c) <> Throws /\
  createScorePredictor stored (lcScore c) <> Throws /\
  createProbabilityPredictor (lcLoss c) stored (lcProbability c) <> Throws.
Proof. exact label_vectors_available. Qed.
Print Assumptions C119_label_vectors_available.

Example C119_label_vectors_available_example :
  let c := mkLearnerConfig NonDecomposableLogistic (BinaryOutputWise true) ScoreOutputWise ProbabilityAuto
             (Isotonic true) NoCalibrator NoGlobalPruning in
  labelVectorsStored c = true /\
  createProbabilityPredictor (lcLoss c) true (lcProbability c) = Created /\
  createProbabilityPredictor (lcLoss c) false (lcProbability c) = Throws /\
  labelVectorsStored (mkLearnerConfig DecomposableLogistic BinaryAuto ScoreOutputWise ProbabilityAuto
             (Isotonic true) NoCalibrator NoGlobalPruning) = false.
Proof. repeat split. Qed.

(** Predictions are available, unless they are disabled or rely on probability estimates that are not provided by the loss. *)
Theorem C119_predictors_available :
  forall c, let stored := labelVectorsStored c in
  (createBinaryPredictor (lcLoss c) stored (lcBinary c) = Created <->
     lcBinary c <> BinaryNone /\
     (requires_probabilities (lcBinary c) = true -> hasProbabilityFunctions (lcLoss c) = true)) /\
  (createScorePredictor stored (lcScore c) = Created <-> lcScore c <> ScoreNone) /\
  (createProbabilityPredictor (lcLoss c) stored (lcProbability c) = Created <->
     lcProbability c <> ProbabilityNone /\ hasProbabilityFunctions (lcLoss c) = true).
Proof. exact predictors_available. Qed.
Print Assumptions C119_predictors_available.

Example C119_predictors_available_example :
  let c := mkLearnerConfig DecomposableSquaredError (BinaryExampleWise false) ScoreOutputWise ProbabilityAuto
             NoCalibrator NoCalibrator NoGlobalPruning in
  createBinaryPredictor (lcLoss c) (labelVectorsStored c) (lcBinary c) = Created /\
  createScorePredictor (labelVectorsStored c) (lcScore c) = Created /\
  createProbabilityPredictor (lcLoss c) (labelVectorsStored c) (lcProbability c) = Unsupported.
Proof. repeat split. Qed.

(** Label vectors are only stored if something would fail without them, or if a component is configured that is not
    supported by the loss. *)
Theorem C119_label_vectors_needed :
  forall c, labelVectorsStored c = true ->
  createJointCalibrator (lcLoss c) false (lcJoint c) = Throws \/
  createBinaryPredictor (lcLoss c) false (lcBinary c) = Throws \/
  createProbabilityPredictor (lcLoss c) false (lcProbability c) = Throws \/
  hasProbabilityFunctions (lcLoss c) = false /\
    (lcJoint c <> NoCalibrator \/ requires_probabilities (lcBinary c) = true \/
     lcProbability c = ProbabilityAuto \/ lcProbability c = Marginalized).
Proof. exact label_vectors_needed. Qed.
Print Assumptions C119_label_vectors_needed.

Example C119_label_vectors_needed_example :
  let c := mkLearnerConfig DecomposableLogistic BinaryAuto ScoreOutputWise Marginalized
             NoCalibrator NoCalibrator NoGlobalPruning in
  labelVectorsStored c = true /\ createProbabilityPredictor (lcLoss c) false (lcProbability c) = Throws.
Proof. repeat split. Qed.

(** ** C120: A holdout set is created automatically if and only if it is used
    Missing: a holdout set is also created for calibrators that are not supported by the loss. *)
(** If a component uses a holdout set, it is created. *)
Theorem C120_available_partial : forall c, holdout_set_used c -> autoHoldoutSet c = true.
Proof. exact holdout_available. Qed.
Print Assumptions C120_available_partial.

Example C120_available_partial_example :
  let c := mkLearnerConfig DecomposableLogistic BinaryGfm ScoreNone ProbabilityNone
             NoCalibrator (Isotonic true) (PostPruning false) in
  holdout_set_used c /\ autoHoldoutSet c = true /\
  autoHoldoutSet (mkLearnerConfig DecomposableLogistic BinaryGfm ScoreNone ProbabilityNone
             NoCalibrator (Isotonic false) (PostPruning false)) = false.
Proof. split; [right; right; right; reflexivity|]. split; reflexivity. Qed.

(** If a logistic loss is used, a holdout set is created if and only if it is used. *)
Theorem C120_logistic_partial : forall c, lcLoss c = DecomposableLogistic \/ lcLoss c = NonDecomposableLogistic ->
  (autoHoldoutSet c = true <-> holdout_set_used c).
Proof. exact holdout_logistic. Qed.
Print Assumptions C120_logistic_partial.

Example C120_logistic_partial_example :
  let c := mkLearnerConfig NonDecomposableLogistic BinaryAuto ScoreNone ProbabilityNone
             (Isotonic false) (Isotonic false) (PrePruning true) in
  autoHoldoutSet c = true /\ holdout_set_used c.
Proof. split; [reflexivity|right; left; reflexivity]. Qed.

(** A holdout set is created for isotonic calibration, although the loss does not support it. *)
Theorem C120_unused_refuted : exists c, autoHoldoutSet c = true /\ ~ holdout_set_used c.
Proof. exact holdout_refuted. Qed.
Print Assumptions C120_unused_refuted.
