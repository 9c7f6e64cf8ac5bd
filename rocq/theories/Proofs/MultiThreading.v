(** Proofs about the number of threads. *)
From Coq Require Import ZArith NArith List Bool Arith Lia Permutation.
From Verif Require Import Lib.Arr Model.Labels Model.Rules Model.Prediction Model.JointPrediction Model.Predictors Model.MultiThreading.
From Verif Require Import Spec.Labels Spec.Rules Spec.Stopping Spec.JointPrediction Spec.Predictors Proofs.PredictorsBinary.
Import ListNotations.
Local Open Scope nat_scope.

Lemma training_threads :
  forall (buildOption : bool) (cores numOutputs : nat) (t : task), 1 <= cores -> t = RuleRefinement \/ t = StatisticUpdate ->
    (forall preferred, usedThreads buildOption cores t (ManualMultiThreading preferred) numOutputs =
       (if buildOption then (if preferred =? 0 then cores else Nat.min preferred cores) else 1)) /\
    usedThreads buildOption cores t NoMultiThreading numOutputs = 1.
Proof.
  intros b cores n t HC [-> | ->]; (split; [intros [|preferred]|]; destruct b; try reflexivity);
    unfold usedThreads, getSettings, getNumAvailableThreads; cbn - [Nat.min]; apply Nat.min_comm.
Qed.

Lemma library_threads :
  forall (buildOption : bool) (cores numOutputs : nat) (t : task) (config : threadingConfig),
    t <> RuleRefinement -> t <> StatisticUpdate -> usedThreads buildOption cores t config numOutputs = 1.
Proof. intros b cores n [] config H1 H2; try contradiction; reflexivity. Qed.

Lemma library_threads_refuted :
  exists (cores numOutputs preferred : nat), 1 < cores /\ preferred = 0 /\
    forall t, In t [StatisticInitialization; StatisticConversion; BoostingPrediction; SecoPrediction] ->
      usedThreads true cores t (ManualMultiThreading preferred) numOutputs = 1.
Proof. exists 8, 3, 0. split; [lia|]. split; [reflexivity|]. intros t [<- |[<- |[<- |[<- |[]]]]]; reflexivity. Qed.

Lemma automatic_threads :
  forall (buildOption : bool) (cores numOutputs : nat) (t : task) (config : threadingConfig),
    (exists decomposable singleOutput sparse sampled, config = AutoRuleRefinement decomposable singleOutput sparse sampled) \/
    (exists decomposable, config = AutoStatisticUpdate decomposable) ->
    getSettings buildOption cores config numOutputs = 1 /\ usedThreads buildOption cores t config numOutputs = 1.
Proof.
  intros b cores n t config H.
  assert (E : getSettings b cores config n = 1).
  { destruct H as [(d & s & sp & sa & ->)|(d & ->)]; unfold getSettings.
    - destruct (negb d && negb s), (sp && negb sa); reflexivity.
    - destruct (negb d && (20 <=? n)); reflexivity. }
  split; [exact E|]. unfold usedThreads. rewrite E. destruct (multiThreadingSupport _ b); reflexivity.
Qed.

Lemma automatic_threads_refuted :
  exists (cores numOutputs : nat), 1 < cores /\
    usedThreads true cores RuleRefinement (ManualMultiThreading 0) numOutputs = cores /\
    usedThreads true cores StatisticUpdate (ManualMultiThreading 0) numOutputs = cores /\
    (forall decomposable singleOutput sparse sampled,
       usedThreads true cores RuleRefinement (AutoRuleRefinement decomposable singleOutput sparse sampled) numOutputs = 1) /\
    (forall decomposable, usedThreads true cores StatisticUpdate (AutoStatisticUpdate decomposable) numOutputs = 1).
Proof.
  exists 8, 30. split; [lia|]. repeat split.
  - intros [] [] [] []; reflexivity.
  - intros []; reflexivity.
Qed.

Lemma one_thread :
  forall (V : Type) (add : V -> V -> V) (zero : V) (junk : fval) (m : featureMatrix) (l : ruleList (rule V))
    (buildOption : bool) (cores : nat) (config : threadingConfig) (numLabels maxRules : nat) apply applySparse
    (assignment : list (nat * nat)) (memory : list (list bool)) (realMemory : list (list V)) (u : nat),
    0 < fmRows m -> Permutation (map fst assignment) (seq 0 (fmRows m)) ->
    getSettings buildOption cores config numLabels = 1 -> length realMemory = getSettings buildOption cores config numLabels ->
    let order := map (fun '(i, thread) => (i, predictionThread buildOption thread)) assignment in
    predictBinary add zero junk (Some apply) m l numLabels maxRules order realMemory memory = None /\
    predictBinarySparse add zero junk (Some applySparse) m l maxRules order realMemory u = None.
Proof.
  intros V add zero junk m l b cores config numLabels maxRules apply applySparse assignment memory realMemory u HR HP H1 HL order.
  assert (E : order = map (fun i => (i, 1)) (map fst assignment)).
  { unfold order. rewrite map_map. apply map_ext. intros (i, t). reflexivity. }
  rewrite H1 in HL. destruct realMemory as [|r [|r2 realMemory]]; try discriminate.
  destruct assignment as [|(i, t) assignment].
  { apply Permutation_nil in HP. destruct (fmRows m); [lia|discriminate]. }
  rewrite E. cbn [map fst]. split; [reflexivity|]. unfold predictBinarySparse. reflexivity.
Qed.

Lemma one_thread_refuted :
  exists (m : featureMatrix) (l : ruleList (rule Z)) (apply : list Z -> list bool -> option (list bool))
      (memory : list (list bool)) (realMemory2 realMemory1 : list (list Z)) (cores : nat),
    let predict := fun realMemory => predictBinary Z.add 0%Z NaN (Some apply) m l 1 0
      (map (fun i => (i, predictionThread true 0)) (seq 0 (fmRows m))) realMemory memory in
    length realMemory2 = getSettings true cores (ManualMultiThreading 2) 1 /\ predict realMemory2 = Some [[true]] /\
    length realMemory1 = getSettings true cores NoMultiThreading 1 /\ predict realMemory1 = None.
Proof.
  exists (DenseMatrix [[Fin 1]]), (mkRuleList (Some (EmptyBody, CompleteHead [2%Z])) [] 0 true), (applyOutputWise (fun _ => Z.ltb 0)),
    [[false]], [[7%Z]; [8%Z]], [[7%Z]], 4. repeat split.
Qed.

Lemma several_threads :
  forall (V : Type) (add : V -> V -> V) (zero : V) (junk : fval) (m : featureMatrix) (l : ruleList (rule V))
    (buildOption : bool) (cores : nat) (config : threadingConfig) (numLabels maxRules : nat) (row : nat -> list fval)
    (scores : nat -> list V) (f : list V -> list bool)
    (apply : list V -> list bool -> option (list bool)) (applySparse : list V -> list nat -> option (list nat))
    (assignment : list (nat * nat)) (realMemory : list (list V)) (memory : list (list bool)) (u : nat),
    rlNumUsed l <= rlGetNumRules l -> (N.of_nat (rlGetNumRules l) < 2 ^ 32)%N ->
    (forall i, i < fmRows m -> example_row m i (row i) /\
       score_of add (fun r => coversDense (row i) (fst r))
         (expected_order (rlDefault l) (rlRules l) (rlPrecedence l) (limitRules maxRules (rlGetNumUsed l)))
         (repeat zero numLabels) = Some (scores i)) ->
    Permutation (map fst assignment) (seq 0 (fmRows m)) ->
    1 < getSettings buildOption cores config numLabels ->
    length realMemory = getSettings buildOption cores config numLabels -> Forall (fun r => length r = numLabels) realMemory ->
    length memory = fmRows m -> Forall (fun r => length r = numLabels) memory ->
    let order := map (fun '(i, thread) => (i, predictionThread buildOption thread)) assignment in
    (writes_labels numLabels f apply ->
       predictBinary add zero junk (Some apply) m l numLabels maxRules order realMemory memory =
         Some (map (fun i => f (scores i)) (seq 0 (fmRows m)))) /\
    (appends_labels numLabels f applySparse ->
       (N.of_nat (length (concat (map (fun i => relevant_labels (f (scores i))) (seq 0 (fmRows m))))) < 2 ^ 32)%N ->
       exists indices indptr, predictBinarySparse add zero junk (Some applySparse) m l maxRules order realMemory u = Some (indices, indptr) /\
         length indptr = fmRows m + 1 /\ forall i, i < fmRows m -> csrRow indices indptr i = Some (relevant_labels (f (scores i)))).
Proof.
  intros V add zero junk m l b cores config numLabels maxRules row scores f apply applySparse assignment realMemory memory u
    HU H32 HS HP H1 LR FR LM FM order.
  eapply binary_batch; eauto.
  - unfold order. rewrite map_map. replace (map _ assignment) with (map fst assignment); [exact HP|].
    apply map_ext. intros (i, t). reflexivity.
  - unfold order. rewrite map_map. apply Forall_forall. intros t Ht. apply in_map_iff in Ht. destruct Ht as ((i, t') & <- & _).
    cbn. rewrite LR. exact H1.
Qed.
