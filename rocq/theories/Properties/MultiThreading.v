(** Properties of the number of threads. *)
From Coq Require Import ZArith NArith List Bool Arith Lia Permutation.
From Verif Require Import Lib.Arr Model.Labels Model.Rules Model.Prediction Model.JointPrediction Model.Predictors Model.MultiThreading.
From Verif Require Import Spec.Labels Spec.Rules Spec.Stopping Spec.JointPrediction Spec.Predictors Proofs.MultiThreading.
Import ListNotations.
Open Scope nat_scope.

(** ** C136: false; full statement: if the library has been built with support for multi-threading, refining rules, calculating and
    updating statistics and obtaining predictions use the configured number of threads, or a number that depends on the loss
    function, if it should be chosen automatically, and the predictions do not depend on it. *)

(** Missing: the remaining tasks and automatic configurations. When refining rules and updating statistics, the preferred number of
    threads is used, unless it exceeds the number of CPU cores, or all CPU cores, if it is zero. A single thread is used if
    multi-threading is disabled. *)
Theorem C136_training_partial : forall (buildOption : bool) (cores numOutputs : nat) (t : task), 1 <= cores -> t = RuleRefinement \/ t = StatisticUpdate ->
    (forall preferred, usedThreads buildOption cores t (ManualMultiThreading preferred) numOutputs =
       (if buildOption then (if preferred =? 0 then cores else Nat.min preferred cores) else 1)) /\
    usedThreads buildOption cores t NoMultiThreading numOutputs = 1.
Proof. exact training_threads. Qed.
Print Assumptions C136_training_partial.

Example C136_training_partial_example : 1 <= 8 /\ usedThreads true 8 RuleRefinement (ManualMultiThreading 3) 5 = 3 /\
  usedThreads true 8 StatisticUpdate (ManualMultiThreading 12) 5 = 8 /\ usedThreads false 8 StatisticUpdate (ManualMultiThreading 0) 5 = 1.
Proof. split; [lia|]. repeat split. Qed.

(** A single thread is used for the remaining tasks, even if all CPU cores should be used. *)
Theorem C136_libraries_refuted : exists (cores numOutputs preferred : nat), 1 < cores /\ preferred = 0 /\
    forall t, In t [StatisticInitialization; StatisticConversion; BoostingPrediction; SecoPrediction] ->
      usedThreads true cores t (ManualMultiThreading preferred) numOutputs = 1.
Proof. exact library_threads_refuted. Qed.
Print Assumptions C136_libraries_refuted.

(** This is the case for all configurations. *)
Theorem C136_libraries_always_refuted : forall (buildOption : bool) (cores numOutputs : nat) (t : task) (config : threadingConfig),
    t <> RuleRefinement -> t <> StatisticUpdate -> usedThreads buildOption cores t config numOutputs = 1.
Proof. exact library_threads. Qed.
Print Assumptions C136_libraries_always_refuted.

Example C136_libraries_always_refuted_example : SecoPrediction <> RuleRefinement /\ SecoPrediction <> StatisticUpdate.
Proof. split; discriminate. Qed.

(** The default configurations do not make use of CPU cores that may be used when configured manually, regardless of the loss
    function. *)
Theorem C136_automatic_refuted : exists (cores numOutputs : nat), 1 < cores /\
    usedThreads true cores RuleRefinement (ManualMultiThreading 0) numOutputs = cores /\
    usedThreads true cores StatisticUpdate (ManualMultiThreading 0) numOutputs = cores /\
    (forall decomposable singleOutput sparse sampled,
       usedThreads true cores RuleRefinement (AutoRuleRefinement decomposable singleOutput sparse sampled) numOutputs = 1) /\
    (forall decomposable, usedThreads true cores StatisticUpdate (AutoStatisticUpdate decomposable) numOutputs = 1).
Proof. exact automatic_threads_refuted. Qed.
Print Assumptions C136_automatic_refuted.

(** The number of threads that is chosen automatically is always one. *)
Theorem C136_automatic_always_refuted : forall (buildOption : bool) (cores numOutputs : nat) (t : task) (config : threadingConfig),
    (exists decomposable singleOutput sparse sampled, config = AutoRuleRefinement decomposable singleOutput sparse sampled) \/
    (exists decomposable, config = AutoStatisticUpdate decomposable) ->
    getSettings buildOption cores config numOutputs = 1 /\ usedThreads buildOption cores t config numOutputs = 1.
Proof. exact automatic_threads. Qed.
Print Assumptions C136_automatic_always_refuted.

Example C136_automatic_always_refuted_example :
  exists decomposable singleOutput sparse sampled, AutoRuleRefinement true true false false = AutoRuleRefinement decomposable singleOutput sparse sampled.
Proof. exists true, true, false, false. reflexivity. Qed.

(** Missing: a single thread. If more than one thread is available, the predictions of boosting algorithms are as in C128 in any
    build and for any assignment of examples to threads. *)
Theorem C136_predictions_partial : forall (V : Type) (add : V -> V -> V) (zero : V) (junk : fval) (m : featureMatrix) (l : ruleList (rule V))
    (buildOption : bool) (cores : nat) (config : threadingConfig) (numLabels maxRules : nat) (row : nat -> list fval)
    (scores : nat -> list V) (f : list V -> list bool)
    (apply : list V -> list bool -> option (list bool)) (applySparse : list V -> list nat -> option (list nat))
    (assignment : list (nat * nat)) (realMemory : list (list V)) (memory : list (list bool)) (u : nat),
    rlNumUsed l <= rlGetNumRules l -> (N.of_nat (rlGetNumRules l) < 2 ^ 32)%N ->
    (forall i, i < fmRows m -> example_row m i (row i) /\
       score_of add (fun r => coversDense (row i) (fst r))
         (expected_order (rlDefault l) (rlRules l) (rlPrecedence l) (limitRules maxRules (rlGetNumUsed l)))
         (repeat zero numLabels) = Some (scores i)) ->
    Permutation (map fst assignment) (seq 0 (fmRows m)) ->
    1 < getSettings buildOption cores config numLabels ->
    length realMemory = getSettings buildOption cores config numLabels -> Forall (fun r => length r = numLabels) realMemory ->
    length memory = fmRows m -> Forall (fun r => length r = numLabels) memory ->
    let order := map (fun '(i, thread) => (i, predictionThread buildOption thread)) assignment in
    (writes_labels numLabels f apply ->
       predictBinary add zero junk (Some apply) m l numLabels maxRules order realMemory memory =
         Some (map (fun i => f (scores i)) (seq 0 (fmRows m)))) /\
    (appends_labels numLabels f applySparse ->
       (N.of_nat (length (concat (map (fun i => relevant_labels (f (scores i))) (seq 0 (fmRows m))))) < 2 ^ 32)%N ->
       exists indices indptr, predictBinarySparse add zero junk (Some applySparse) m l maxRules order realMemory u = Some (indices, indptr) /\
         length indptr = fmRows m + 1 /\ forall i, i < fmRows m -> csrRow indices indptr i = Some (relevant_labels (f (scores i)))).
Proof. exact several_threads. Qed.
Print Assumptions C136_predictions_partial.

Example C136_predictions_partial_example :
  1 < getSettings true 4 (ManualMultiThreading 2) 2 /\ length [[0; 0]; [0; 0]] = getSettings true 4 (ManualMultiThreading 2) 2 /\
  Permutation (map fst [(1, 0); (0, 0)]) (seq 0 2) /\
  let r := (ConjunctiveBody (mkBody [(0, Fin 3)] [] [] [] [] []), CompleteHead [5; -3]%Z) in
  let l := mkRuleList (Some (EmptyBody, CompleteHead [-1; 2]%Z)) [r] 0 true in
  predictBinary Z.add 0%Z NaN (Some (applyOutputWise (fun _ => Z.ltb 0))) (DenseMatrix [[Fin 1]; [Fin 5]]) l 2 0
    (map (fun '(i, thread) => (i, predictionThread true thread)) [(1, 0); (0, 0)]) [[7; 7]; [8; 8]]%Z
    [[true; true]; [true; true]] = Some [[true; false]; [false; true]].
Proof. split; [cbn; lia|]. split; [reflexivity|]. split; [apply perm_swap|reflexivity]. Qed.

(** If multi-threading is not used for prediction, a row of the score matrix that does not exist is accessed, even if the library has
    been built with support for multi-threading. *)
Theorem C136_predictions_refuted : exists (m : featureMatrix) (l : ruleList (rule Z)) (apply : list Z -> list bool -> option (list bool))
      (memory : list (list bool)) (realMemory2 realMemory1 : list (list Z)) (cores : nat),
    let predict := fun realMemory => predictBinary Z.add 0%Z NaN (Some apply) m l 1 0
      (map (fun i => (i, predictionThread true 0)) (seq 0 (fmRows m))) realMemory memory in
    length realMemory2 = getSettings true cores (ManualMultiThreading 2) 1 /\ predict realMemory2 = Some [[true]] /\
    length realMemory1 = getSettings true cores NoMultiThreading 1 /\ predict realMemory1 = None.
Proof. exact one_thread_refuted. Qed.
Print Assumptions C136_predictions_refuted.

(** This happens in any build, for every model and every data set that contains at least one example. *)
Theorem C136_predictions_always_refuted : forall (V : Type) (add : V -> V -> V) (zero : V) (junk : fval) (m : featureMatrix) (l : ruleList (rule V))
    (buildOption : bool) (cores : nat) (config : threadingConfig) (numLabels maxRules : nat) apply applySparse
    (assignment : list (nat * nat)) (memory : list (list bool)) (realMemory : list (list V)) (u : nat),
    0 < fmRows m -> Permutation (map fst assignment) (seq 0 (fmRows m)) ->
    getSettings buildOption cores config numLabels = 1 -> length realMemory = getSettings buildOption cores config numLabels ->
    let order := map (fun '(i, thread) => (i, predictionThread buildOption thread)) assignment in
    predictBinary add zero junk (Some apply) m l numLabels maxRules order realMemory memory = None /\
    predictBinarySparse add zero junk (Some applySparse) m l maxRules order realMemory u = None.
Proof. exact one_thread. Qed.
Print Assumptions C136_predictions_always_refuted.

Example C136_predictions_always_refuted_example : 0 < fmRows (DenseMatrix [[Fin 1]; [Fin 5]]) /\
  Permutation (map fst [(1, 0); (0, 0)]) (seq 0 2) /\ getSettings true 8 NoMultiThreading 2 = 1 /\
  getSettings true 1 (ManualMultiThreading 0) 2 = 1.
Proof. split; [cbn; lia|]. split; [apply perm_swap|]. split; reflexivity. Qed.
