(** Properties C29-C31, C40, C41, C77-C80: search for refinements, rule induction, pruning and post-optimization. *)
From Coq Require Import ZArith Arith List Bool Permutation Sorted Lia.
From Verif Require Import Lib.Arr Model.Refinement Model.Induction Spec.Interleaving Spec.Refinement Spec.Induction
  Proofs.Refinement Proofs.RefinementParallel Proofs.Greedy Proofs.Induction Proofs.RefinementFindings.
Import ListNotations.
Open Scope nat_scope.

(** ** C29 *)
Theorem C29_best_refinement :
  forall (k : learner) (cands : list candidate) (c : single), exists r,
    first_best k (scQuality c) cands r /\
    forL cands (singleEvaluate k) c =
      Some (match r with Some x => mkSingle (Some x) (cQuality x) | None => c end).
Proof. exact feed_single. Qed.
Print Assumptions C29_best_refinement.

Theorem C29_best_over_features :
  forall (k : learner) (features : list (list candidate)) (c : single), exists r,
    first_best k (scQuality c) (concat features) r /\
    findSingle k features c =
      Some (match r with Some _ => true | None => false end,
            match r with Some x => mkSingle (Some x) (cQuality x) | None => c end).
Proof. exact find_single. Qed.
Print Assumptions C29_best_over_features.

Example C29_example :
  findSingle Boosting [[mkCand 0 0 3 [0] (-2); mkCand 0 1 4 [0] (-5)]; []; [mkCand 2 0 2 [0] (-5); mkCand 2 1 1 [0] 7]]
    singleNew = Some (true, mkSingle (Some (mkCand 0 1 4 [0] (-5))) (-5)) /\
  findSingle SeCo [[mkCand 0 0 3 [0] (-2); mkCand 0 1 4 [0] (-5)]] singleNew = Some (false, singleNew).
Proof. split; reflexivity. Qed.

(** ** C30 *)
Theorem C30_parallel_search :
  forall (V : Type) (k : learner) (features : list nat) (create : nat -> V) (filtered : V -> V) (numModifications : nat)
    (candidates : nat -> V -> list candidate) (comparator : single) (cache : list (option V))
    (cacheFiltered : list (option V * nat)) (assignment : list (list nat)) (interleaved : list action),
    NoDup features -> (forall f, In f features -> f < length cacheFiltered /\ f < length cache) ->
    Permutation (concat assignment) (seq 0 (length features)) ->
    let vector := searchedVector create filtered numModifications cache cacheFiltered in
    let numCandidates i := length (match nth_error features i with Some f => candidates f (vector f) | None => [] end) in
    interleaving (map (flat_map (iterationProgram numCandidates)) assignment) interleaved ->
    exists st, forL interleaved (execute features create filtered numModifications candidates (singleEvaluate k))
        (parallelInit features singleCopy comparator cache cacheFiltered) = Some st /\
      parallelMerge features (singleMerge k) (psEntries st) comparator =
        findSingle k (map (fun f => candidates f (vector f)) features) comparator /\
      forall g, searchedVector create filtered numModifications (psCache st) (psFiltered st) g = vector g.
Proof. exact parallel_single. Qed.
Print Assumptions C30_parallel_search.

Theorem C30_parallel_beam :
  forall (V : Type) (k : learner) (sort : list candidate -> list candidate) (m : nat) (q : Z) (features : list nat)
    (create : nat -> V) (filtered : V -> V) (numModifications : nat) (candidates : nat -> V -> list candidate)
    (cache : list (option V)) (cacheFiltered : list (option V * nat)) (assignment : list (list nat))
    (interleaved : list action),
    sorting k sort -> 1 <= m ->
    NoDup features -> (forall f, In f features -> f < length cacheFiltered /\ f < length cache) ->
    Permutation (concat assignment) (seq 0 (length features)) ->
    let vector := searchedVector create filtered numModifications cache cacheFiltered in
    let numCandidates i := length (match nth_error features i with Some f => candidates f (vector f) | None => [] end) in
    interleaving (map (flat_map (iterationProgram numCandidates)) assignment) interleaved ->
    exists st, forL interleaved (execute features create filtered numModifications candidates (fixedEvaluate k sort))
        (parallelInit features fixedCopy (fixedNew m q) cache cacheFiltered) = Some st /\
      parallelMerge features (fixedMerge k) (psEntries st) (fixedNew m q) =
        findFixed k sort (map (fun f => candidates f (vector f)) features) (fixedNew m q) /\
      forall g, searchedVector create filtered numModifications (psCache st) (psFiltered st) g = vector g.
Proof. exact parallel_fixed. Qed.
Print Assumptions C30_parallel_beam.

(** Features 1 and 0 are searched by two threads; the vector of feature 1 is cached, that of feature 0 is created. *)
Example C30_example :
  let candidates f (v : nat) := [mkCand f v 3 [0] (- Z.of_nat v); mkCand f v 2 [0] (-4)] in
  let interleaved := [Invoke 1; Invoke 0; Evaluate 0; Evaluate 1; Evaluate 1; Evaluate 0] in
  interleaving (map (flat_map (iterationProgram (fun _ => 2))) [[0]; [1]]) interleaved /\
  (let* st := forL interleaved (execute [1; 0] (fun f => f + 5) (fun v => v + 1) 1 candidates (singleEvaluate Boosting))
     (parallelInit [1; 0] singleCopy singleNew [None; Some 3] [(None, 0); (None, 0)]) in
   parallelMerge [1; 0] (singleMerge Boosting) (psEntries st) singleNew)
    = Some (true, mkSingle (Some (mkCand 0 6 3 [0] (-6))) (-6)).
Proof.
  split; [|vm_compute; reflexivity]. simpl.
  apply (il_step [[Invoke 0; Evaluate 0; Evaluate 0]] _ _ []).
  apply (il_step [] _ _ [[Evaluate 1; Evaluate 1]]).
  apply (il_step [] _ _ [[Evaluate 1; Evaluate 1]]).
  apply (il_step [[Evaluate 0]] _ _ []).
  apply (il_step [[Evaluate 0]] _ _ []).
  apply (il_step [] _ _ [[]]).
  apply il_done. repeat constructor.
Qed.

(** ** C31 *)

(** The comparator used by the beam search does not keep the best refinements: a refinement that is worse than all those
    seen so far is dropped even if fewer refinements than allowed have been found. *)
Theorem C31_beam_candidates_refuted :
  exists (features : list (list candidate)) (n : nat), forall sort, sorting SeCo sort ->
    exists c x y, findFixed SeCo sort features (fixedNew n minQuality) = Some (true, c) /\
      In x (fcOrder c) /\ In y (concat features) /\ ~ In y (fcOrder c) /\ better SeCo (cQuality y) (cQuality x).
Proof. exact fixed_refuted. Qed.
Print Assumptions C31_beam_candidates_refuted.

(** Missing: that the remaining refinements are the best ones, which is refuted above. *)
Theorem C31_beam_candidates_partial :
  forall (k : learner) (sort : list candidate -> list candidate) (n : nat) (q : Z) (features : list (list candidate)),
    sorting k sort -> 1 <= n ->
    exists found c, findFixed k sort features (fixedNew n q) = Some (found, c) /\ fcMax c = n /\
      (best_first k (fcOrder c) /\ length (fcOrder c) <= n /\
       (forall x, In x (fcOrder c) -> In x (concat features) /\ better k (cQuality x) q) /\
       (fcOrder c = [] -> forall x, In x (concat features) -> ~ better k (cQuality x) q) /\
       (forall h l, fcOrder c = h :: l -> forall x, In x (concat features) -> ~ better k (cQuality x) (cQuality h))) /\
      (found = true <-> fcOrder c <> []).
Proof. exact find_fixed. Qed.
Print Assumptions C31_beam_candidates_partial.

Theorem C31_merge_partial :
  forall (k : learner) (c other : fixed), best_first k (fcOrder c) -> best_first k (fcOrder other) ->
    exists found c', fixedMerge k c other = Some (found, c') /\ fcMax c' = fcMax c /\
      n_best k (fcMax c) (fcOrder c ++ fcOrder other) (fcOrder c').
Proof. exact fixed_merge. Qed.
Print Assumptions C31_merge_partial.

Example C31_example :
  sorting SeCo (sortBy SeCo cQuality) /\
  findFixed SeCo (sortBy SeCo cQuality)
    [[mkCand 0 0 3 [0] 2; mkCand 0 1 4 [0] 5; mkCand 0 2 4 [0] 1]; [mkCand 1 0 2 [0] 4; mkCand 1 1 1 [0] 7]] (fixedNew 3 0)
  = Some (true, mkFixed [mkCand 1 1 1 [0] 7; mkCand 0 1 4 [0] 5; mkCand 1 0 2 [0] 4] 3 4).
Proof. split; [apply sortBy_sorting|reflexivity]. Qed.

(** ** C40 *)
Theorem C40_irep :
  forall (k : learner) (evaluate : list bool -> Z) (conditions : list cond) (numExamples : nat),
    (forall c, In c conditions -> length c = numExamples) -> 1 < length conditions ->
    let quality n := evaluate (coverage numExamples (firstn n conditions)) in
    exists m, 1 <= m <= length conditions /\
      irep k evaluate conditions (coverage numExamples conditions) =
        Some (firstn m conditions, Some (coverage numExamples (firstn m conditions)),
              coverage numExamples (firstn (length conditions - 1) conditions)) /\
      (forall j, 1 <= j <= length conditions -> ~ better k (quality j) (quality m)) /\
      (forall j, 1 <= j < m -> better k (quality m) (quality j)).
Proof. exact irep_lemma. Qed.
Print Assumptions C40_irep.

Theorem C40_irep_single_condition :
  forall (k : learner) (evaluate : list bool -> Z) (conditions : list cond) (mask : list bool), length conditions <= 1 ->
    irep k evaluate conditions mask = Some (conditions, None, mask).
Proof. exact irep_short. Qed.
Print Assumptions C40_irep_single_condition.

(** The second prefix is as good as the original rule, the first one is worse. *)
Example C40_example :
  let conditions := [[true; true; true; false]; [true; true; false; true]; [true; false; true; true]] in
  irep SeCo (fun m => (Z.of_nat (length (filter negb (firstn 3 m))) - (if nth 1 m false then 0 else 1))%Z) conditions
    (coverage 4 conditions)
  = Some (firstn 2 conditions, Some [true; true; false; false], [true; true; false; false]).
Proof. reflexivity. Qed.

(** ** C41 *)
Theorem C41_greedy_growth :
  forall (fuel : nat) (k : learner) (minCoverage maxConditions maxHeadRefinements : nat)
    (search : nat -> list candidate -> list nat -> list (list candidate)) (outputs : list nat)
    (conditions : list candidate) (head : option candidate),
    growGreedy fuel k minCoverage maxConditions maxHeadRefinements search outputs = Some (conditions, head) ->
    let found i := concat (search i (firstn i conditions) (allowedOutputs maxHeadRefinements outputs (firstn i conditions))) in
    (forall i, i < length conditions -> first_best k (qualityOf (firstn i conditions)) (found i) (nth_error conditions i)) /\
    head = nth_error conditions (length conditions - 1) /\
    (0 < maxConditions -> length conditions <= maxConditions) /\
    (forall i c, i < length conditions - 1 -> nth_error conditions i = Some c -> minCoverage < cCovered c) /\
    ((0 < maxConditions /\ length conditions = maxConditions) \/
     (exists c, nth_error conditions (length conditions - 1) = Some c /\ cCovered c <= minCoverage) \/
     first_best k (qualityOf conditions)
       (concat (search (length conditions) conditions (allowedOutputs maxHeadRefinements outputs conditions))) None).
Proof. exact greedy_lemma. Qed.
Print Assumptions C41_greedy_growth.

Theorem C41_greedy_terminates :
  forall (k : learner) (minCoverage maxConditions maxHeadRefinements : nat)
    (search : nat -> list candidate -> list nat -> list (list candidate)) (outputs : list nat) (numExamples fuel : nat),
    (forall n outs x, In x (concat (search n [] outs)) -> cCovered x <= numExamples) ->
    (forall n conds c outs x, nth_error conds (length conds - 1) = Some c -> In x (concat (search n conds outs)) ->
       cCovered x < cCovered c) ->
    numExamples + 2 <= fuel ->
    exists result, growGreedy fuel k minCoverage maxConditions maxHeadRefinements search outputs = Some result.
Proof. exact greedy_terminates. Qed.
Print Assumptions C41_greedy_terminates.

(** The first condition restricts the head to output 1; the third one does not improve the rule. *)
Example C41_example :
  let search (n : nat) (conds : list candidate) (outs : list nat) :=
    match conds with
    | [] => [[mkCand 0 0 7 [0; 1] (-1)]; [mkCand 1 0 6 [1] (-3); mkCand 1 1 5 [0] (-3)]]
    | [_] => [[mkCand 2 0 4 outs (-5)]; [mkCand 0 5 3 outs (-4)]]
    | _ => [[mkCand 0 9 2 outs (-5)]]
    end in
  growGreedy 10 Boosting 1 4 1 search [0; 1] =
    Some ([mkCand 1 0 6 [1] (-3); mkCand 2 0 4 [1] (-5)], Some (mkCand 2 0 4 [1] (-5))) /\
  growGreedy 10 Boosting 6 4 1 search [0; 1] = Some ([mkCand 1 0 6 [1] (-3)], Some (mkCand 1 0 6 [1] (-3))).
Proof. split; reflexivity. Qed.

(** ** C77 *)

(** The rule returned by the beam search is worse than one found earlier, which has been replaced by worse refinements. *)
Theorem C77_beam_loses_best_refuted :
  exists search outputs, forall sortC sortE, sorting SeCo sortC -> sorting_entries SeCo sortE ->
    exists e x, growBeam SeCo sortC sortE 2 1 search 5 0 1 outputs = Some (Some e) /\
      In x (concat (search 0 [] outputs)) /\ better SeCo (cQuality x) (beQuality e).
Proof. exact beam_lost. Qed.
Print Assumptions C77_beam_loses_best_refuted.

(** The returned rule is not the best one of the final beam. *)
Theorem C77_beam_not_sorted_refuted :
  exists search outputs, forall sortC sortE, sorting SeCo sortC -> sorting_entries SeCo sortE ->
    exists e order, growBeam SeCo sortC sortE 2 1 search 5 0 1 outputs = Some (Some e) /\
      beamLoop SeCo sortC sortE 2 1 search 5 0 1 1 (map (initializeEntry outputs true) (concat (search 0 [] outputs))) 1
        = Some (e :: order) /\
      exists e', In e' order /\ better SeCo (beQuality e') (beQuality e).
Proof. exact beam_unsorted. Qed.
Print Assumptions C77_beam_not_sorted_refuted.

(** Refining the beam overwrites the best refinement that has just been found. *)
Theorem C77_beam_overwrites_refuted :
  exists search outputs, forall sortC sortE, sorting SeCo sortC -> sorting_entries SeCo sortE ->
    exists order n order' x, findFixed SeCo sortC (search 0 [] outputs) (fixedNew 2 minQuality)
        = Some (true, mkFixed order 2 9%Z) /\
      refineBeam SeCo sortC sortE 2 1 search true (map (initializeEntry outputs true) order) 1 = Some (true, order', n) /\
      (exists c, In c order /\ In x (concat (search 2 [c] (cOutputs c)))) /\
      forall e, In e order' -> better SeCo (cQuality x) (beQuality e).
Proof. exact beam_overwritten. Qed.
Print Assumptions C77_beam_overwrites_refuted.

(** ** C78 *)
Theorem C78_beam_search :
  forall (k : learner) (sortC : list candidate -> list candidate) (sortE : list entry -> list entry)
    (beamWidth minCoverage : nat) (search : nat -> list candidate -> list nat -> list (list candidate)),
    sorting k sortC -> sorting_entries k sortE -> 1 <= beamWidth ->
    forall (fuel maxConditions maxHeadRefinements : nat) (outputs : list nat) (result : option entry),
    growBeam k sortC sortE beamWidth minCoverage search fuel maxConditions maxHeadRefinements outputs = Some result ->
    match result with
    | Some e => beConditions e <> [] /\ (0 < maxConditions -> length (beConditions e) <= maxConditions) /\
        (forall i c, nth_error (beConditions e) i = Some c ->
           exists n outs, In c (concat (search n (firstn i (beConditions e)) outs))) /\
        beQuality e = qualityOf (beConditions e) /\ better k (beQuality e) 0%Z
    | None => forall x, In x (concat (search 0 [] outputs)) -> ~ better k (cQuality x) 0%Z
    end.
Proof. exact beam_lemma. Qed.
Print Assumptions C78_beam_search.

Theorem C78_beam_terminates :
  forall (k : learner) (sortC : list candidate -> list candidate) (sortE : list entry -> list entry)
    (beamWidth minCoverage : nat) (search : nat -> list candidate -> list nat -> list (list candidate)),
    sorting k sortC -> sorting_entries k sortE -> 1 <= beamWidth ->
    forall (numExamples fuel maxConditions maxHeadRefinements : nat) (outputs : list nat),
    (forall n outs x, In x (concat (search n [] outs)) -> cCovered x <= numExamples) ->
    (forall n conds c outs x, nth_error conds (length conds - 1) = Some c -> In x (concat (search n conds outs)) ->
       cCovered x < cCovered c) ->
    numExamples + 1 <= fuel ->
    exists result,
      growBeam k sortC sortE beamWidth minCoverage search fuel maxConditions maxHeadRefinements outputs = Some result.
Proof. exact beam_terminates. Qed.
Print Assumptions C78_beam_terminates.

Example C78_example :
  let search (n : nat) (conds : list candidate) (outs : list nat) :=
    match conds with
    | [] => [[mkCand 0 0 7 [0] 2; mkCand 1 0 6 [0] 3]]
    | [c] => if cFeature c =? 0 then [[mkCand 2 0 4 outs 8]] else [[mkCand 0 5 3 outs 4]]
    | _ => []
    end in
  sorting SeCo (sortBy SeCo cQuality) /\ sorting_entries SeCo (sortBy SeCo beQuality) /\
  growBeam SeCo (sortBy SeCo cQuality) (sortBy SeCo beQuality) 2 1 search 10 3 1 [0; 1] =
    Some (Some (mkEntry [mkCand 1 0 6 [0] 3; mkCand 0 5 3 [0] 4] 4 None)).
Proof. split; [apply sortBy_sorting|]. split; [apply sortBy_sorting_entries|reflexivity]. Qed.

(** ** C79 *)

(** If IREP is used, the predictions of a rule are applied to the examples covered by all but the last condition of the
    rule before pruning. *)
Theorem C79_induce_rule_refuted :
  exists conditions evaluate, (forall c, In c conditions -> length c = 3) /\
    exists conditions' mask, induceRule Boosting true true true evaluate conditions (coverage 3 conditions)
      = Some (conditions', Some (coverage 3 conditions'), mask) /\ mask <> coverage 3 conditions'.
Proof. exact induce_refuted. Qed.
Print Assumptions C79_induce_rule_refuted.

(** Missing: rules with several conditions that are subject to IREP, for which the claim is refuted above. *)
Theorem C79_induce_rule_partial :
  forall (k : learner) (pruning recalculate hasZeroWeights : bool) (evaluate : list bool -> Z) (conditions : list cond)
    (numExamples : nat),
    hasZeroWeights = false \/ pruning = false \/ length conditions <= 1 ->
    induceRule k pruning recalculate hasZeroWeights evaluate conditions (coverage numExamples conditions) =
      Some (conditions, (if hasZeroWeights && recalculate then Some (coverage numExamples conditions) else None),
            coverage numExamples conditions).
Proof. exact induce_not_pruned. Qed.
Print Assumptions C79_induce_rule_partial.

(** The head is recalculated from exactly the examples that are covered by the rule, even if it has been pruned. *)
Theorem C79_recalculation_partial :
  forall (k : learner) (pruning : bool) (evaluate : list bool -> Z) (conditions : list cond) (numExamples : nat),
    (forall c, In c conditions -> length c = numExamples) ->
    exists conditions' mask, induceRule k pruning true true evaluate conditions (coverage numExamples conditions)
      = Some (conditions', Some (coverage numExamples conditions'), mask).
Proof. exact induce_recalculated. Qed.
Print Assumptions C79_recalculation_partial.

Example C79_example :
  induceRule Boosting false true true (fun _ => 0%Z) [[true; true; false]; [true; false; true]]
    (coverage 3 [[true; true; false]; [true; false; true]]) =
  Some ([[true; true; false]; [true; false; true]], Some [true; false; false], [true; false; false]).
Proof. reflexivity. Qed.

(** ** C80 *)

(** If no new rule can be induced, the old rule remains in the model although its predictions have been reverted. *)
Theorem C80_post_optimization_refuted :
  exists relearn rules predictions, up_to_date (fun _ => 0%Z) rules predictions /\ length predictions = 2 /\
    exists rules' predictions' n, optimizeModel 2 1 relearn rules predictions = Some (rules', predictions', n) /\
      ~ up_to_date (fun _ => 0%Z) rules' predictions'.
Proof. exact optimize_refuted. Qed.
Print Assumptions C80_post_optimization_refuted.

(** Missing: inductions that fail and rules whose predictions are not applied to the examples they cover. *)
Theorem C80_post_optimization_partial :
  forall (numExamples numIterations : nat) (relearn : nat -> list Z -> srule -> option (srule * list bool))
    (base : nat -> Z) (rules : list srule) (predictions : list Z),
    (forall m p r, exists r', relearn m p r = Some (r', coverage numExamples (fst r')) /\
       forall c, In c (fst r') -> length c = numExamples) ->
    (forall r c, In r rules -> In c (fst r) -> length c = numExamples) -> length predictions = numExamples ->
    up_to_date base rules predictions ->
    exists rules' predictions' n, optimizeModel numExamples numIterations relearn rules predictions
        = Some (rules', predictions', n) /\ length rules' = length rules /\ up_to_date base rules' predictions'.
Proof. exact optimize_ok. Qed.
Print Assumptions C80_post_optimization_partial.

Example C80_example :
  let relearn n (p : list Z) (r : srule) := Some (([[true; Nat.even n; true]], Z.of_nat n), [true; Nat.even n; true]) in
  optimizeModel 3 1 relearn [([[true; false; true]], 5%Z); ([[true; true; false]; [false; true; true]], 7%Z)] [5; 7; 5]%Z
  = Some ([([[true; true; true]], 0%Z); ([[true; false; true]], 1%Z)], [1; 0; 1]%Z, 2).
Proof. reflexivity. Qed.
