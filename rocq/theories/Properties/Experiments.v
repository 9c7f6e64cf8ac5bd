(** Properties of the parameters, models and characteristics of data sets in experiments. *)
From Coq Require Import List Bool Arith ZArith QArith String Sorted Lia.
From Verif Require Import Lib.Arr Model.Testbed Model.Experiments Spec.Experiments Proofs.Experiments.
Import ListNotations.
Open Scope nat_scope.

(** ** C166: parameters that are loaded from files *)

(** The parameters of a learner are as documented, if no parameter is given different values via the command line and a file. Parameters that are given different values are missing. *)
Theorem C166_documented_partial :
  forall base file p, NoDup (map fst base) -> NoDup (map fst file) ->
  (forall k v w, In (k, Some v) base -> In (k, w) file -> v = w) ->
  currentParams base (Some file) = Some p ->
  forall k o, In (k, o) p <-> documentedValue base file k o.
Proof. exact documented_without_conflicts. Qed.
Print Assumptions C166_documented_partial.

(** What happens in general: The parameters in a file take precedence, all other parameters are unchanged, and an error occurs if and only if a parameter in the file does not exist. *)
Theorem C166_file_partial :
  forall base file, NoDup (map fst base) -> NoDup (map fst file) ->
  ((exists p, currentParams base (Some file) = Some p) <-> forall k, In k (map fst file) -> In k (map fst base)) /\
  forall p, currentParams base (Some file) = Some p -> map fst p = map fst base /\
    (forall k v, In (k, v) file -> In (k, Some v) p) /\
    forall k o, ~ In k (map fst file) -> (In (k, o) p <-> In (k, o) base).
Proof. exact file_takes_precedence. Qed.
Print Assumptions C166_file_partial.

(** The values that are written are those of all parameters that are not set to their default value. If they are loaded, the parameters of a learner for which no parameters are given via the command line are restored. *)
Theorem C166_restored_partial :
  forall p, NoDup (map fst p) ->
  (forall k v, In (k, v) (tabularizeParams p) <-> In (k, Some v) p) /\
  currentParams (map (fun kv => (fst kv, None)) p) (Some (tabularizeParams p)) = Some p.
Proof. exact parameters_restored. Qed.
Print Assumptions C166_restored_partial.

(** A parameter that is given via the command line is overridden by the value in the file. *)
Theorem C166_command_line_refuted :
  exists base file p k v w, NoDup (map fst base) /\ NoDup (map fst file) /\ In (k, Some v) base /\ In (k, w) file /\
  currentParams base (Some file) = Some p /\ documentedValue base file k (Some v) /\ ~ In (k, Some v) p /\ In (k, Some w) p.
Proof. exact command_line_refuted. Qed.
Print Assumptions C166_command_line_refuted.

Example C166_example :
  let base := [("max_rules", Some "50"); ("shrinkage", None); ("loss", None)]%string in
  let file := [("max_rules", "50"); ("loss", "squared-error-decomposable")]%string in
  NoDup (map fst base) /\ NoDup (map fst file) /\ (forall k v w, In (k, Some v) base -> In (k, w) file -> v = w) /\
  currentParams base (Some file) = Some [("max_rules", Some "50"); ("shrinkage", None); ("loss", Some "squared-error-decomposable")]%string /\
  tabularizeParams base = [("max_rules", "50")]%string /\ currentParams base (Some [("unknown", "1")]%string) = None /\
  currentParams base None = Some base.
Proof.
  cbv zeta. split; [repeat constructor; cbn; intuition discriminate|]. split; [repeat constructor; cbn; intuition discriminate|].
  split; [|repeat split]. intros k v w A B. cbn in A, B. intuition congruence.
Qed.

(** ** C167: models that are loaded from files *)

(** The names of the files that store the models of different folds are distinct. *)
Theorem C167_names_partial :
  forall name suffix fold1 fold2, getFileNamePerFold name suffix fold1 = getFileNamePerFold name suffix fold2 -> fold1 = fold2.
Proof. exact file_names_distinct. Qed.
Print Assumptions C167_names_partial.

(** If no models are available, they are trained. If the same folds are used again, the model that has been trained for a fold is used, and no models are trained, regardless of the training examples that are given. Therefore, other training examples are missing. *)
Theorem C167_reused_partial :
  forall {L : Type} dir name folds (train : option nat -> L), NoDup folds -> (forall fold, In fold folds -> loadModel dir name fold = None) ->
  exists dir', useModels dir name folds train = (dir', map (fun fold => (train fold, true)) folds) /\
  forall train', useModels dir' name folds train' = (dir', map (fun fold => (train fold, false)) folds).
Proof. exact (@models_reused). Qed.
Print Assumptions C167_reused_partial.

(** If the number of folds changes, a model that has been trained on examples in the test set is used. *)
Theorem C167_other_refuted :
  exists examples perm runs runs' dir fold r model,
  crossValidation examples 2 perm (-1)%Z = Some runs /\ crossValidation examples 3 perm (-1)%Z = Some runs' /\
  fst (useModels [] "boomer" (foldsOf runs) (trainingExamples runs)) = dir /\
  nth_error (snd (useModels dir "boomer" (foldsOf runs') (trainingExamples runs'))) fold = Some (model, false) /\
  nth_error runs' fold = Some r /\ exists e, In e model /\ In e (rtest r) /\ ~ In e (rtrain r).
Proof. exact other_models_refuted. Qed.
Print Assumptions C167_other_refuted.

Example C167_example :
  getFileNamePerFold "boomer" "model" (Some 9) = "boomer_fold-10.model"%string /\
  getFileNamePerFold "boomer" "model" None = "boomer_overall.model"%string /\
  let folds := [Some 0; Some 1] in
  let train := fun fold : option nat => match fold with Some f => f + 100 | None => 0 end in
  let dir := [("boomer_overall.model", 7); ("boomer_fold-3.model", 8)]%string in
  NoDup folds /\ (forall fold, In fold folds -> loadModel dir "boomer" fold = None) /\
  snd (useModels dir "boomer" folds train) = [(100, true); (101, true)] /\
  snd (useModels dir "boomer" [Some 2; None] train) = [(8, false); (7, false)].
Proof.
  split; [reflexivity|]. split; [reflexivity|]. cbv zeta. split; [repeat constructor; cbn; intuition discriminate|].
  split; [intros fold [<-|[<-|[]]]; reflexivity|]. split; reflexivity.
Qed.

(** ** C168: characteristics of output matrices *)

(** The characteristics do not depend on the format of a matrix. Sparse matrices that store zeros are missing. *)
Theorem C168_same_partial :
  forall numCols dense sparse, validOutputs numCols sparse -> noZeros sparse -> sameOutputs numCols dense sparse ->
  let d := DenseOutputs numCols dense in
  let s := SparseOutputs numCols sparse in
  density s = density d /\ labelCardinality s = labelCardinality d /\ labelImbalanceRatio s = labelImbalanceRatio d /\
  (binary dense -> distinctLabelVectors s = distinctLabelVectors d).
Proof. exact same_characteristics. Qed.
Print Assumptions C168_same_partial.

(** The characteristics of dense matrices correspond to their definition. *)
Theorem C168_values_partial :
  forall numCols r, Forall (fun row => List.length row = numCols) r ->
  let m := DenseOutputs numCols r in
  (0 < numCols -> r <> [] ->
   (density m == inject_Z (Z.of_nat (numRelevant (List.concat r))) / inject_Z (Z.of_nat (List.length r * numCols)))%Q /\
   exists q, labelCardinality m = Some q /\ (q == density m * inject_Z (Z.of_nat numCols))%Q) /\
  ((numCols = 0 \/ r = []) -> density m = 0%Q) /\ (labelCardinality m = None <-> r = []) /\
  (0 <= density m <= 1)%Q /\
  ((exists row v, In row r /\ In v row /\ v <> 0%Z) -> (1 <= labelImbalanceRatio m)%Q) /\
  ((forall row v, In row r -> In v row -> v = 0%Z) -> labelImbalanceRatio m = 0%Q) /\
  exists l, distinctLabelVectors m = List.length l /\ NoDup l /\ forall row, In row l <-> In row r.
Proof. exact characteristics_of_labels. Qed.
Print Assumptions C168_values_partial.

(** The average label imbalance ratio of dense matrices corresponds to its definition, if there are any relevant labels. *)
Theorem C168_imbalance_partial :
  forall numCols r, Forall (fun row => List.length row = numCols) r ->
  (exists row v, In row r /\ In v row /\ v <> 0%Z) ->
  isImbalanceRatio (map (fun j => numRelevant (map (fun row => nth j row 0%Z) r)) (seq 0 numCols))
    (labelImbalanceRatio (DenseOutputs numCols r)).
Proof. exact imbalance_ratio_defined. Qed.
Print Assumptions C168_imbalance_partial.

(** If zeros are stored in a sparse matrix, all characteristics may be wrong. *)
Theorem C168_zeros_refuted :
  exists numCols dense sparse, validOutputs numCols sparse /\ sameOutputs numCols dense sparse /\ binary dense /\
  let d := DenseOutputs numCols dense in
  let s := SparseOutputs numCols sparse in
  ~ (density s == density d)%Q /\ labelCardinality s <> labelCardinality d /\
  ~ (labelImbalanceRatio s == labelImbalanceRatio d)%Q /\ distinctLabelVectors s <> distinctLabelVectors d.
Proof. exact stored_zeros_refuted. Qed.
Print Assumptions C168_zeros_refuted.

Example C168_example :
  let dense := [[1%Z; 0%Z; 1%Z]; [0%Z; 0%Z; 0%Z]; [1%Z; 0%Z; 0%Z]; [1%Z; 0%Z; 1%Z]] in
  let sparse := [[(0, 1%Z); (2, 1%Z)]; []; [(0, 1%Z)]; [(0, 1%Z); (2, 1%Z)]] in
  validOutputs 3 sparse /\ noZeros sparse /\ sameOutputs 3 dense sparse /\ binary dense /\
  Forall (fun row => List.length row = 3) dense /\
  (density (SparseOutputs 3 sparse) == 5 # 12)%Q /\ labelCardinality (DenseOutputs 3 dense) = Some (ratio 5 4) /\
  (labelImbalanceRatio (SparseOutputs 3 sparse) == 5 # 4)%Q /\ distinctLabelVectors (SparseOutputs 3 sparse) = 3.
Proof.
  cbv zeta. split; [repeat constructor; cbn; lia|]. split; [unfold noZeros; repeat (apply Forall_cons || apply Forall_nil); discriminate|].
  split.
  - unfold sameOutputs. repeat (apply Forall2_cons || apply Forall2_nil); (split; [reflexivity|]); intros [|[|[|[|j]]]] v H; cbn in H;
      try discriminate; injection H as <-; unfold storedValue; cbn; intuition discriminate.
  - split; [unfold binary; repeat (apply Forall_cons || apply Forall_nil); auto|]. split; [repeat constructor|].
    repeat split; vm_compute; reflexivity.
Qed.
