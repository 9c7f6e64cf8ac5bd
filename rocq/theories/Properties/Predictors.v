(** Properties of the predictors of the boosting algorithm. *)
From Coq Require Import ZArith NArith QArith List Bool Arith Lia Permutation Sorted.
From Verif Require Import Lib.Arr Model.Labels Model.Rules Model.Prediction Model.JointPrediction Model.Predictors.
From Verif Require Import Spec.Labels Spec.Rules Spec.Stopping Spec.JointPrediction Spec.Predictors.
From Verif Require Import Proofs.PredictorsBinary Proofs.PredictorsProbability.
Import ListNotations.
Open Scope nat_scope.

(** ** C128: Binary predictions do not depend on how they are obtained *)

(** Dense and sparse matrices contain the labels that result from the scores of the examples, regardless of the order in which
    examples are processed, the threads they are assigned to and the previous content of memory. [f]: the transformation of scores
    into labels. *)
Theorem C128_batch : forall (V : Type) (add : V -> V -> V) (zero : V) (junk : fval) (m : featureMatrix) (l : ruleList (rule V))
    (numLabels maxRules : nat) (row : nat -> list fval) (scores : nat -> list V) (f : list V -> list bool)
    (apply : list V -> list bool -> option (list bool)) (applySparse : list V -> list nat -> option (list nat))
    (order : list (nat * nat)) (realMemory : list (list V)) (memory : list (list bool)) (u : nat),
    rlNumUsed l <= rlGetNumRules l -> (N.of_nat (rlGetNumRules l) < 2 ^ 32)%N ->
    (forall i, i < fmRows m -> example_row m i (row i) /\
       score_of add (fun r => coversDense (row i) (fst r))
         (expected_order (rlDefault l) (rlRules l) (rlPrecedence l) (limitRules maxRules (rlGetNumUsed l)))
         (repeat zero numLabels) = Some (scores i)) ->
    Permutation (map fst order) (seq 0 (fmRows m)) -> Forall (fun t => t < length realMemory) (map snd order) ->
    Forall (fun r => length r = numLabels) realMemory -> length memory = fmRows m -> Forall (fun r => length r = numLabels) memory ->
    (writes_labels numLabels f apply ->
       predictBinary add zero junk (Some apply) m l numLabels maxRules order realMemory memory =
         Some (map (fun i => f (scores i)) (seq 0 (fmRows m)))) /\
    (appends_labels numLabels f applySparse ->
       (N.of_nat (length (concat (map (fun i => relevant_labels (f (scores i))) (seq 0 (fmRows m))))) < 2 ^ 32)%N ->
       exists indices indptr, predictBinarySparse add zero junk (Some applySparse) m l maxRules order realMemory u = Some (indices, indptr) /\
         length indptr = fmRows m + 1 /\ forall i, i < fmRows m -> csrRow indices indptr i = Some (relevant_labels (f (scores i)))).
Proof. exact binary_batch. Qed.
Print Assumptions C128_batch.

(* Two examples, processed in reverse order by one out of two threads *)
Example C128_batch_example :
  let r := (ConjunctiveBody (mkBody [(0, Fin 3)] [] [] [] [] []), CompleteHead [5; -3]%Z) in
  let l := mkRuleList (Some (EmptyBody, CompleteHead [-1; 2]%Z)) [r] 0 true in
  let m := DenseMatrix [[Fin 1]; [Fin 5]] in
  let row := fun i => nth i [[Fin 1]; [Fin 5]] [] in
  let scores := fun i => nth i [[4; -1]; [-1; 2]]%Z [] in
  rlNumUsed l <= rlGetNumRules l /\ (N.of_nat (rlGetNumRules l) < 2 ^ 32)%N /\
  (forall i, i < fmRows m -> example_row m i (row i) /\
     score_of Z.add (fun r => coversDense (row i) (fst r))
       (expected_order (rlDefault l) (rlRules l) (rlPrecedence l) (limitRules 0 (rlGetNumUsed l))) (repeat 0%Z 2) = Some (scores i)) /\
  predictBinary Z.add 0%Z NaN (Some (applyOutputWise (fun _ => Z.ltb 0))) m l 2 0 [(1, 1); (0, 1)] [[7; 7]; [8; 8]]%Z
    [[true; true]; [true; true]] = Some [[true; false]; [false; true]] /\
  predictBinarySparse Z.add 0%Z NaN (Some (applyOutputWiseSparse (fun _ => Z.ltb 0))) m l 0 [(1, 1); (0, 1)] [[7; 7]; [8; 8]]%Z 9 =
    Some ([0; 1], [0; 1; 2]).
Proof.
  intros r l m row scores. split; [vm_compute; lia|]. split; [reflexivity|]. split; [|split; reflexivity].
  intros [|[|i]] Hi; [split; reflexivity..|cbn in Hi; lia].
Qed.

(** After each step, an incremental predictor returns the labels that result from the rules that have been used so far. *)
Theorem C128_incremental : forall (V : Type) (add : V -> V -> V) (zero : V) (junk : fval) (m : featureMatrix) (l : ruleList (rule V))
    (numLabels maxRules : nat) (row : nat -> list fval) (scores : nat -> nat -> list V) (f : list V -> list bool)
    (apply : list V -> list bool -> option (list bool)) (applySparse : list V -> list nat -> option (list nat))
    (steps : list (nat * list (nat * nat))) (realMemory : list (list V)) (memory : list (list bool)) (u : nat),
    rlNumUsed l <= rlGetNumRules l -> (N.of_nat (rlGetNumRules l) < 2 ^ 32)%N ->
    (forall i, i < fmRows m -> example_row m i (row i) /\ forall k,
       score_of add (fun r => coversDense (row i) (fst r))
         (firstn k (expected_order (rlDefault l) (rlRules l) (rlPrecedence l) (limitRules maxRules (rlGetNumUsed l))))
         (repeat zero numLabels) = Some (scores k i)) ->
    Forall (fun step => Permutation (map fst (snd step)) (seq 0 (fmRows m))) steps ->
    length memory = fmRows m -> Forall (fun r => length r = numLabels) memory ->
    (writes_labels numLabels f apply -> (forall x, length x = numLabels -> length (f x) = numLabels) ->
       exists results, applyAll add junk (Some apply) m steps
           (createIncremental zero (Some apply) m l numLabels maxRules realMemory memory) = Some results /\
         length results = length steps /\
         forall q, q < length steps -> nth_error results q =
           Some (map (fun i => f (scores (list_sum (map fst (firstn (S q) steps))) i)) (seq 0 (fmRows m)))) /\
    (appends_labels numLabels f applySparse ->
       (forall k, N.of_nat (length (concat (map (fun i => relevant_labels (f (scores k i))) (seq 0 (fmRows m))))) < 2 ^ 32)%N ->
       exists results, applyAllSparse add junk (Some applySparse) m u steps
           (createIncrementalSparse zero (Some applySparse) m l numLabels maxRules realMemory) = Some results /\
         length results = length steps /\
         forall q, q < length steps -> exists indices indptr, nth_error results q = Some (indices, indptr) /\ length indptr = fmRows m + 1 /\
           forall i, i < fmRows m -> csrRow indices indptr i =
             Some (relevant_labels (f (scores (list_sum (map fst (firstn (S q) steps))) i)))).
Proof. exact binary_incremental. Qed.
Print Assumptions C128_incremental.

(* The default rule, followed by the remaining rule *)
Example C128_incremental_example :
  let r := (ConjunctiveBody (mkBody [(0, Fin 3)] [] [] [] [] []), CompleteHead [5; -3]%Z) in
  let l := mkRuleList (Some (EmptyBody, CompleteHead [-1; 2]%Z)) [r] 0 true in
  let m := DenseMatrix [[Fin 1]; [Fin 5]] in
  let row := fun i => nth i [[Fin 1]; [Fin 5]] [] in
  let scores := fun k i => match k with 0 => [0; 0]%Z | 1 => [-1; 2]%Z | _ => nth i [[4; -1]; [-1; 2]]%Z [] end in
  (forall i, i < fmRows m -> example_row m i (row i) /\ forall k,
     score_of Z.add (fun r => coversDense (row i) (fst r))
       (firstn k (expected_order (rlDefault l) (rlRules l) (rlPrecedence l) (limitRules 0 (rlGetNumUsed l)))) (repeat 0%Z 2) = Some (scores k i)) /\
  (let t := applyOutputWise (fun _ => Z.ltb 0) in
   applyAll Z.add NaN (Some t) m [(1, [(0, 0); (1, 0)]); (7, [(1, 0); (0, 1)])]
     (createIncremental 0%Z (Some t) m l 2 0 [] [[true; true]; [true; true]]) =
     Some [[[false; true]; [false; true]]; [[true; false]; [false; true]]]) /\
  (let t := applyOutputWiseSparse (fun _ => Z.ltb 0) in
   applyAllSparse Z.add NaN (Some t) m 9 [(1, [(0, 0); (1, 0)]); (7, [(1, 0); (0, 1)])]
     (createIncrementalSparse 0%Z (Some t) m l 2 0 []) = Some [([1; 1], [0; 1; 2]); ([0; 1], [0; 1; 2])]).
Proof.
  intros r l m row scores. split; [|split; reflexivity].
  intros [|[|i]] Hi; [split; [reflexivity|]; intros [|[|k]]; [reflexivity|reflexivity|rewrite firstn_all2 by (cbn; lia); reflexivity]..|cbn in Hi; lia].
Qed.

(** If there is no transformation, e.g., because no label vectors are known, no labels are predicted as relevant. *)
Theorem C128_without_transformation : forall (V : Type) (add : V -> V -> V) (zero : V) (junk : fval) (m : featureMatrix) (l : ruleList (rule V)) (numLabels maxRules : nat)
    (order : list (nat * nat)) (steps : list (nat * list (nat * nat))) (realMemory : list (list V)) (memory : list (list bool)) (u : nat),
    let nothing := repeat (repeat false numLabels) (fmRows m) in
    predictBinary add zero junk None m l numLabels maxRules order realMemory memory = Some nothing /\
    applyAll add junk None m steps (createIncremental (T := unit) zero None m l numLabels maxRules realMemory memory) =
      Some (repeat nothing (length steps)) /\
    exists indices indptr, predictBinarySparse add zero junk None m l maxRules order realMemory u = Some (indices, indptr) /\
      length indptr = fmRows m + 1 /\ (forall i, i < fmRows m -> csrRow indices indptr i = Some []) /\
      applyAllSparse add junk None m u steps (createIncrementalSparse (T := unit) zero None m l numLabels maxRules realMemory) =
        Some (repeat (indices, indptr) (length steps)).
Proof. exact binary_none. Qed.
Print Assumptions C128_without_transformation.

Example C128_without_transformation_example :
  let r := (ConjunctiveBody (mkBody [(0, Fin 3)] [] [] [] [] []), CompleteHead [5; -3]%Z) in
  let l := mkRuleList (Some (EmptyBody, CompleteHead [-1; 2]%Z)) [r] 0 true in
  let m := DenseMatrix [[Fin 1]; [Fin 5]] in
  predictBinary Z.add 0%Z NaN None m l 2 0 [(1, 1); (0, 1)] [] [[true; true]; [true; true]] = Some [[false; false]; [false; false]] /\
  predictBinarySparse Z.add 0%Z NaN None m l 0 [(1, 1); (0, 1)] [] 9 = Some ([], [0; 0; 0]).
Proof. split; reflexivity. Qed.

(** The transformations meet the requirements of the theorems above. *)
Theorem C128_output_wise : forall (V : Type) (zero : V) (discretize : nat -> V -> bool) (numLabels : nat),
    let f := fun scores => map (fun label => discretize label (nth label scores zero)) (seq 0 (length scores)) in
    writes_labels numLabels f (applyOutputWise discretize) /\ appends_labels numLabels f (applyOutputWiseSparse discretize).
Proof. exact output_wise. Qed.
Print Assumptions C128_output_wise.

Example C128_output_wise_example :
  applyOutputWise (fun label => Z.ltb (Z.of_nat label)) [1; 1; 3]%Z [true; true; true] = Some [true; false; true] /\
  applyOutputWiseSparse (fun label => Z.ltb (Z.of_nat label)) [1; 1; 3]%Z [] = Some [0; 2].
Proof. split; reflexivity. Qed.

Theorem C128_example_wise : forall (V : Type) (distance : list V -> nat -> list nat -> option Q) (labelVectors : list (list nat)) (frequencies : list nat) (numLabels : nat),
    labelVectors <> [] -> length frequencies = length labelVectors ->
    Forall (fun lv => StronglySorted lt lv /\ Forall (fun label => label < numLabels) lv) labelVectors ->
    (forall scores i lv, nth_error labelVectors i = Some lv -> exists d, distance scores i lv = Some d) ->
    exists f, writes_labels numLabels f (fun scores => predictExampleWise (distance scores) labelVectors frequencies) /\
      appends_labels numLabels f (applySparse (fun scores => predictExampleWiseSparse (distance scores) labelVectors frequencies)) /\
      (forall scores, length (f scores) = numLabels) /\ forall scores, In (relevant_labels (f scores)) labelVectors.
Proof. exact example_wise. Qed.
Print Assumptions C128_example_wise.

(* The second label vector is closer *)
Example C128_example_wise_example :
  let distance := fun (scores : list Q) i (lv : list nat) => Some (nth i scores 0%Q) in
  Forall (fun lv => StronglySorted lt lv /\ Forall (fun label => label < 3) lv) [[0; 2]; [1]] /\
  predictExampleWise (distance [2; 1]%Q) [[0; 2]; [1]] [1; 1] [true; true; true] = Some [false; true; false] /\
  applySparse (fun scores => predictExampleWiseSparse (distance scores) [[0; 2]; [1]] [1; 1]) [2; 1]%Q [] = Some [1].
Proof.
  intros distance. split; [|split; reflexivity]. repeat constructor; lia.
Qed.

Theorem C128_gfm : forall (V : Type) sort sortByIndex (joint : list V -> list Q) labelVectors numLabels memory1 memory2,
    (forall k (l : list (nat * Q)), k <= length l -> partialSort k l (sort k l)) -> (forall l, sortedByIndex l (sortByIndex l)) ->
    NoDup labelVectors -> Forall (fun lv => NoDup lv /\ Forall (fun label => label < numLabels) lv) labelVectors ->
    (forall scores, length (joint scores) = length labelVectors) -> length memory1 = numLabels -> length memory2 = numLabels ->
    exists f, writes_labels numLabels f (fun scores _ => applyGfm sort labelVectors (joint scores) numLabels memory1 memory2) /\
      appends_labels numLabels f
        (applySparse (fun scores => applyGfmSparse sort sortByIndex labelVectors (joint scores) numLabels memory1 memory2)) /\
      forall scores, length (f scores) = numLabels.
Proof. exact gfm. Qed.
Print Assumptions C128_gfm.

(* Two labels *)
Example C128_gfm_example :
  let sort (k : nat) (before : list (nat * Q)) :=
    match before with [a; b] => if Qle_bool (snd b) (snd a) then [a; b] else [b; a] | _ => before end in
  NoDup [[]; [0]; [1]; [0; 1]] /\
  applyGfm sort [[]; [0]; [1]; [0; 1]] [3 # 10; 0; 4 # 10; 3 # 10]%Q 2 [(7, 5%Q); (7, 5%Q)] [(7, 5%Q); (7, 5%Q)] = Some [false; true] /\
  applySparse (fun scores => applyGfmSparse sort (fun l => l) [[]; [0]; [1]; [0; 1]] scores 2 [(7, 5%Q); (7, 5%Q)] [(7, 5%Q); (7, 5%Q)])
    [3 # 10; 0; 4 # 10; 3 # 10]%Q [] = Some [1].
Proof. split; [|split; reflexivity]. repeat constructor; simpl; intros H; intuition discriminate. Qed.

(** ** C129: Probabilities do not depend on how they are obtained *)

(** The scores of an example are replaced by probabilities in place. [f]: the transformation of scores into probabilities. *)
Theorem C129_batch : forall (add : Q -> Q -> Q) (junk : fval) (m : featureMatrix) (l : ruleList (rule Q))
    (numLabels maxRules : nat) (row : nat -> list fval) (scores : nat -> list Q) (f : list Q -> list Q)
    (apply : nat -> nat -> list Q -> option (list Q)) (order : list nat),
    rlNumUsed l <= rlGetNumRules l -> (N.of_nat (rlGetNumRules l) < 2 ^ 32)%N ->
    (forall i, i < fmRows m -> example_row m i (row i) /\
       score_of add (fun r => coversDense (row i) (fst r))
         (expected_order (rlDefault l) (rlRules l) (rlPrecedence l) (limitRules maxRules (rlGetNumUsed l)))
         (repeat 0%Q numLabels) = Some (scores i)) ->
    writes_probabilities numLabels f apply -> Permutation order (seq 0 (fmRows m)) ->
    predictProbabilities add junk (Some apply) m l numLabels maxRules order = Some (concat (map (fun i => f (scores i)) (seq 0 (fmRows m)))).
Proof. exact probability_batch. Qed.
Print Assumptions C129_batch.

(* Two examples, processed in reverse order *)
Example C129_batch_example :
  let r := (ConjunctiveBody (mkBody [(0, Fin 3)] [] [] [] [] []), CompleteHead [5; -3]%Q) in
  let l := mkRuleList (Some (EmptyBody, CompleteHead [-1; 2]%Q)) [r] 0 true in
  let m := DenseMatrix [[Fin 1]; [Fin 5]] in
  let row := fun i => nth i [[Fin 1]; [Fin 5]] [] in
  let scores := fun i => nth i [[4; -1]; [-1; 2]]%Q [] in
  rlNumUsed l <= rlGetNumRules l /\ (N.of_nat (rlGetNumRules l) < 2 ^ 32)%N /\
  (forall i, i < fmRows m -> example_row m i (row i) /\
     score_of Qplus (fun r => coversDense (row i) (fst r))
       (expected_order (rlDefault l) (rlRules l) (rlPrecedence l) (limitRules 0 (rlGetNumUsed l))) (repeat 0%Q 2) = Some (scores i)) /\
  predictProbabilities Qplus NaN (Some (applyOutputWiseProbability (fun label s => s + inject_Z (Z.of_nat label))%Q 2)) m l 2 0 [1; 0] =
    Some [4; 0; -1; 3]%Q.
Proof.
  intros r l m row scores. split; [vm_compute; lia|]. split; [reflexivity|]. split; [|reflexivity].
  intros [|[|i]] Hi; [split; reflexivity..|cbn in Hi; lia].
Qed.

(** Incremental predictors keep scores in a matrix of their own. After each step, they return the probabilities that result from the
    rules that have been used so far. *)
Theorem C129_incremental : forall (add : Q -> Q -> Q) (junk : fval) (m : featureMatrix) (l : ruleList (rule Q))
    (numLabels maxRules : nat) (row : nat -> list fval) (scores : nat -> nat -> list Q) (f : list Q -> list Q)
    (apply : nat -> nat -> list Q -> option (list Q)) (steps : list (nat * list nat)) (uninitialized : list Q),
    rlNumUsed l <= rlGetNumRules l -> (N.of_nat (rlGetNumRules l) < 2 ^ 32)%N ->
    (forall i, i < fmRows m -> example_row m i (row i) /\ forall k,
       score_of add (fun r => coversDense (row i) (fst r))
         (firstn k (expected_order (rlDefault l) (rlRules l) (rlPrecedence l) (limitRules maxRules (rlGetNumUsed l))))
         (repeat 0%Q numLabels) = Some (scores k i)) ->
    writes_probabilities numLabels f apply -> Forall (fun step => Permutation (snd step) (seq 0 (fmRows m))) steps ->
    length uninitialized = fmRows m * numLabels ->
    exists results, applyAllProbabilities add junk (Some apply) m numLabels steps
        (createProbabilityPredictor (Some apply) m l numLabels maxRules uninitialized) = Some results /\
      length results = length steps /\
      forall q, q < length steps -> nth_error results q =
        Some (concat (map (fun i => f (scores (list_sum (map fst (firstn (S q) steps))) i)) (seq 0 (fmRows m)))).
Proof. exact probability_incremental. Qed.
Print Assumptions C129_incremental.

(* The default rule, followed by the remaining rule *)
Example C129_incremental_example :
  let r := (ConjunctiveBody (mkBody [(0, Fin 3)] [] [] [] [] []), CompleteHead [5; -3]%Q) in
  let l := mkRuleList (Some (EmptyBody, CompleteHead [-1; 2]%Q)) [r] 0 true in
  let m := DenseMatrix [[Fin 1]; [Fin 5]] in
  let row := fun i => nth i [[Fin 1]; [Fin 5]] [] in
  let scores := fun k i => match k with 0 => [0; 0]%Q | 1 => [-1; 2]%Q | _ => nth i [[4; -1]; [-1; 2]]%Q [] end in
  (forall i, i < fmRows m -> example_row m i (row i) /\ forall k,
     score_of Qplus (fun r => coversDense (row i) (fst r))
       (firstn k (expected_order (rlDefault l) (rlRules l) (rlPrecedence l) (limitRules 0 (rlGetNumUsed l)))) (repeat 0%Q 2) = Some (scores k i)) /\
  let t := applyOutputWiseProbability (fun label s => s + inject_Z (Z.of_nat label))%Q 2 in
  applyAllProbabilities Qplus NaN (Some t) m 2 [(1, [0; 1]); (7, [1; 0])] (createProbabilityPredictor (Some t) m l 2 0 [7; 7; 7; 7]%Q) =
    Some [[-1; 3; -1; 3]%Q; [4; 0; -1; 3]%Q].
Proof.
  intros r l m row scores. split; [|reflexivity].
  intros [|[|i]] Hi; [split; [reflexivity|]; intros [|[|k]]; [reflexivity|reflexivity|rewrite firstn_all2 by (cbn; lia); reflexivity]..|cbn in Hi; lia].
Qed.

(** If there is no transformation, all probabilities are zero. *)
Theorem C129_without_transformation : forall (add : Q -> Q -> Q) (junk : fval) (m : featureMatrix) (l : ruleList (rule Q)) (numLabels maxRules : nat) (order : list nat)
    (steps : list (nat * list nat)) (uninitialized : list Q), length uninitialized = fmRows m * numLabels ->
    predictProbabilities add junk None m l numLabels maxRules order = Some (repeat 0%Q (fmRows m * numLabels)) /\
    applyAllProbabilities add junk None m numLabels steps (createProbabilityPredictor (T := unit) None m l numLabels maxRules uninitialized) =
      Some (repeat (repeat 0%Q (fmRows m * numLabels)) (length steps)).
Proof. exact probability_none. Qed.
Print Assumptions C129_without_transformation.

Example C129_without_transformation_example :
  let l := mkRuleList (Some (EmptyBody, CompleteHead [-1; 2]%Q)) [] 0 true in
  length [7; 7; 7; 7]%Q = fmRows (DenseMatrix [[Fin 1]; [Fin 5]]) * 2 /\
  predictProbabilities Qplus NaN None (DenseMatrix [[Fin 1]; [Fin 5]]) l 2 0 [1; 0] = Some [0; 0; 0; 0]%Q.
Proof. split; reflexivity. Qed.

(** The transformations meet the requirements of the theorems above. *)
Theorem C129_output_wise : forall (t : nat -> Q -> Q) n, writes_probabilities n (fun scores => map (fun label => t label (nth label scores 0%Q)) (seq 0 (length scores))) (applyOutputWiseProbability t n).
Proof. exact output_wise_probability. Qed.
Print Assumptions C129_output_wise.

(* In place and into other cells *)
Example C129_output_wise_example :
  let apply := applyOutputWiseProbability (fun label s => s + inject_Z (Z.of_nat label))%Q 2 in
  cells [1; 2; 3; 4]%Q 2 2 [3; 4]%Q /\ apply 2 2 [1; 2; 3; 4]%Q = Some [1; 2; 3; 5]%Q /\ apply 2 0 [1; 2; 3; 4]%Q = Some [3; 5; 3; 4]%Q.
Proof.
  intros apply. split; [|split; reflexivity]. split; [cbn; lia|]. split; [reflexivity|].
  intros [|[|i]] Hi; [reflexivity..|lia].
Qed.

(** The probability of a label is the sum of the normalized probabilities of the label vectors it is relevant to. [p]: the joint
    probabilities before they are normalized. *)
Theorem C129_marginalized : forall (joint : nat -> list nat -> list Q -> option Q) (p : list Q -> nat -> Q) labelVectors jointMemory numLabels,
    Forall (fun lv => NoDup lv /\ Forall (fun label => label < numLabels) lv) labelVectors -> length jointMemory = length labelVectors ->
    (forall scores i lv, length scores = numLabels -> nth_error labelVectors i = Some lv -> joint i lv scores = Some (p scores i)) ->
    (forall scores i, length scores = numLabels -> i < length labelVectors -> (0 <= p scores i)%Q) ->
    exists f, writes_probabilities numLabels f (applyMarginalizedProbability joint labelVectors jointMemory numLabels) /\
      forall scores, length scores = numLabels -> length (f scores) = numLabels /\
        exists probabilities, length probabilities = length labelVectors /\
          ((exists i, i < length labelVectors /\ (0 < p scores i)%Q) -> (Qsum probabilities == 1)%Q) /\
          ((forall i, i < length labelVectors -> (p scores i == 0)%Q) -> forall i, i < length labelVectors -> (nth i probabilities 0 == 0)%Q) /\
          (forall i j, i < length labelVectors -> j < length labelVectors ->
             (nth i probabilities 0 * p scores j == nth j probabilities 0 * p scores i)%Q) /\
          forall label, label < numLabels ->
            (nth label (f scores) 0 == expectation labelVectors probabilities (fun lv => if relevant lv label then 1 else 0))%Q.
Proof. exact marginalized. Qed.
Print Assumptions C129_marginalized.

(* Two label vectors with joint probabilities of 1/4 and 3/4 before the scores are overwritten *)
Example C129_marginalized_example :
  let p := fun (scores : list Q) i => nth i scores 0%Q in
  let joint := fun i (lv : list nat) scores => Some (p scores i) in
  Forall (fun lv => NoDup lv /\ Forall (fun label => label < 2) lv) [[0]; [0; 1]] /\
  exists q1 q2, applyMarginalizedProbability joint [[0]; [0; 1]] [9; 9]%Q 2 2 2 [5; 5; 1 # 4; 3 # 4]%Q = Some [5; 5; q1; q2]%Q /\
    (q1 == 1)%Q /\ (q2 == 3 # 4)%Q.
Proof.
  intros p joint. split; [|eexists; eexists; repeat split]. repeat constructor; cbn; intuition lia.
Qed.

(** ** C130: false; full statement: predictions are the same regardless of whether support for multi-threading is enabled. *)

(** Missing: without support for multi-threading. If it is enabled, predictions are as in C128 for any number of CPU cores, any
    preferred number of threads and any assignment of examples to the available threads. *)
Theorem C130_multi_threaded_partial : forall (V : Type) (add : V -> V -> V) (zero : V) (junk : fval) (m : featureMatrix) (l : ruleList (rule V))
    (numLabels maxRules cores preferred : nat) (row : nat -> list fval) (scores : nat -> list V) (f : list V -> list bool)
    (apply : list V -> list bool -> option (list bool)) (applySparse : list V -> list nat -> option (list nat))
    (assignment : list (nat * nat)) (realMemory : list (list V)) (memory : list (list bool)) (u : nat),
    1 <= cores -> rlNumUsed l <= rlGetNumRules l -> (N.of_nat (rlGetNumRules l) < 2 ^ 32)%N ->
    (forall i, i < fmRows m -> example_row m i (row i) /\
       score_of add (fun r => coversDense (row i) (fst r))
         (expected_order (rlDefault l) (rlRules l) (rlPrecedence l) (limitRules maxRules (rlGetNumUsed l)))
         (repeat zero numLabels) = Some (scores i)) ->
    Permutation (map fst assignment) (seq 0 (fmRows m)) ->
    Forall (fun thread => thread < getNumAvailableThreads true cores preferred) (map snd assignment) ->
    length realMemory = getNumAvailableThreads true cores preferred -> Forall (fun r => length r = numLabels) realMemory ->
    length memory = fmRows m -> Forall (fun r => length r = numLabels) memory ->
    let order := map (fun '(i, thread) => (i, getThreadIndex true thread)) assignment in
    (writes_labels numLabels f apply ->
       predictBinary add zero junk (Some apply) m l numLabels maxRules order realMemory memory =
         Some (map (fun i => f (scores i)) (seq 0 (fmRows m)))) /\
    (appends_labels numLabels f applySparse ->
       (N.of_nat (length (concat (map (fun i => relevant_labels (f (scores i))) (seq 0 (fmRows m))))) < 2 ^ 32)%N ->
       exists indices indptr, predictBinarySparse add zero junk (Some applySparse) m l maxRules order realMemory u = Some (indices, indptr) /\
         length indptr = fmRows m + 1 /\ forall i, i < fmRows m -> csrRow indices indptr i = Some (relevant_labels (f (scores i)))).
Proof. exact multi_threaded. Qed.
Print Assumptions C130_multi_threaded_partial.

(* A single thread *)
Example C130_multi_threaded_partial_example :
  getNumAvailableThreads true 4 1 = 1 /\ getNumAvailableThreads true 4 0 = 4 /\ Forall (fun thread => thread < 1) (map snd [(0, 0); (1, 0)]) /\
  Permutation (map fst [(0, 0); (1, 0)]) (seq 0 2).
Proof. split; [reflexivity|]. split; [reflexivity|]. split; [repeat constructor|]. reflexivity. Qed.

(** Missing: see above. At least one thread is used, and not more than available or preferred. *)
Theorem C130_threads_partial : forall cores preferred, 1 <= cores ->
  1 <= getNumAvailableThreads true cores preferred /\ getNumAvailableThreads true cores preferred <= cores /\
  (0 < preferred -> getNumAvailableThreads true cores preferred <= preferred) /\
  forall thread, thread < getNumAvailableThreads true cores preferred -> getThreadIndex true thread < getNumAvailableThreads true cores preferred.
Proof. exact threads_available. Qed.
Print Assumptions C130_threads_partial.

Example C130_threads_partial_example : 1 <= 8 /\ getNumAvailableThreads true 8 12 = 8.
Proof. split; [lia|reflexivity]. Qed.

(** Without support for multi-threading, a row of the score matrix that does not exist is accessed. *)
Theorem C130_single_threaded_refuted : exists (m : featureMatrix) (l : ruleList (rule Z)) (apply : list Z -> list bool -> option (list bool))
      (memory : list (list bool)) (realMemory : list (list Z)) cores preferred,
    let predict := fun multiThreadingSupport => predictBinary Z.add 0%Z NaN (Some apply) m l 1 0
      (map (fun i => (i, getThreadIndex multiThreadingSupport 0)) (seq 0 (fmRows m))) realMemory memory in
    length realMemory = getNumAvailableThreads false cores preferred /\ length realMemory = getNumAvailableThreads true cores preferred /\
    predict true = Some [[true]] /\ predict false = None.
Proof. exact single_threaded_refuted. Qed.
Print Assumptions C130_single_threaded_refuted.

(** This happens for every model and every data set that contains at least one example. *)
Theorem C130_always_undefined_refuted : forall (V : Type) (add : V -> V -> V) (zero : V) (junk : fval) (m : featureMatrix) (l : ruleList (rule V))
    (numLabels maxRules cores preferred : nat) apply applySparse (memory : list (list bool)) (realMemory : list (list V)) (u : nat),
    0 < fmRows m -> length realMemory = getNumAvailableThreads false cores preferred ->
    let order := map (fun i => (i, getThreadIndex false 0)) (seq 0 (fmRows m)) in
    predictBinary add zero junk (Some apply) m l numLabels maxRules order realMemory memory = None /\
    predictBinarySparse add zero junk (Some applySparse) m l maxRules order realMemory u = None.
Proof. exact threads_unavailable. Qed.
Print Assumptions C130_always_undefined_refuted.

Example C130_always_undefined_refuted_example : 0 < fmRows (DenseMatrix [[Fin 1]; [Fin 5]]) /\ length [[0; 0]] = getNumAvailableThreads false 8 0.
Proof. split; [cbn; lia|reflexivity]. Qed.
