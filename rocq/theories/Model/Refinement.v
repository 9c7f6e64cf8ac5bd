(** Model of the comparators that keep track of the best refinements of a rule, of the search for refinements over
    several features, and of greedy and beam-search rule induction. *)
From Coq Require Import ZArith Arith List Bool.
From Verif Require Import Lib.Arr.
Import ListNotations.
Open Scope nat_scope.

(** Qualities are only compared, so float64 values are represented by integers (0 by 0); NaN is not modelled.
    boosting/rule_evaluation/rule_compare_function.hpp, lines 18-27, and seco/rule_evaluation/rule_compare_function.hpp,
    lines 18-26: smaller values are better when boosting, greater ones for separate-and-conquer. *)
Inductive learner : Type := Boosting | SeCo.
(** See above (boosting/rule_evaluation/rule_compare_function.hpp, lines 18-27; seco/rule_evaluation/rule_compare_function.hpp,
    lines 18-26). *)
Definition compare (k : learner) (first second : Z) : bool :=
  match k with Boosting => (first <? second)%Z | SeCo => (second <? first)%Z end.
(** Both instances of [RuleCompareFunction] use a minimum quality of 0.0. *)
Definition minQuality : Z := 0%Z.

(** common/rule_refinement/refinement.hpp, lines 14-34, and common/model/condition.hpp, lines 33-81: a refinement whose
    head is not null. [cCondition] stands for the comparator, threshold and interval; [cOutputs] are the outputs the
    head predicts for; the predicted scores are left out. *)
Record candidate : Type :=
  mkCand { cFeature : nat; cCondition : nat; cCovered : nat; cOutputs : list nat; cQuality : Z }.

(** ** SingleRefinementComparator *)

(** refinement_comparator_single.hpp, lines 13-22: [scBest] is [None] if [bestRefinement_.headPtr] is null. *)
Record single : Type := mkSingle { scBest : option candidate; scQuality : Z }.

(** refinement_comparator_single.cpp, lines 3-5. *)
Definition singleNew : single := mkSingle None minQuality.

(** lines 7-9: the copy constructor copies the best quality, but not the best refinement. *)
Definition singleCopy (c : single) : single := mkSingle None (scQuality c).

(** lines 23-25. *)
Definition singleIsImprovement (k : learner) (x : candidate) (c : single) : bool :=
  compare k (cQuality x) (scQuality c).

(** lines 27-31 (and score_processor.cpp, lines 6-64: the quality of the head is that of the scores). *)
Definition singlePush (x : candidate) (c : single) : single := mkSingle (Some x) (cQuality x).

(** The pattern used by all searches, e.g. feature_based_search_nominal.hpp, lines 30-38: a candidate is pushed if it is
    an improvement. *)
Definition singleEvaluate (k : learner) (x : candidate) (c : single) : option single :=
  Some (if singleIsImprovement k x c then singlePush x c else c).

(** lines 33-43. Line 38 dereferences [headPtr]; [None] if it is null. *)
Definition singleMerge (k : learner) (c other : single) : option (bool * single) :=
  if compare k (scQuality other) (scQuality c) then
    let* best := scBest other in Some (true, mkSingle (Some best) (cQuality best))
  else Some (false, c).

(** ** FixedRefinementComparator *)

(** refinement_comparator_fixed.hpp, lines 16-27: [fcOrder] is [order_], [fcMax] is [maxRefinements_], [fcMin] is [minQuality_]. *)
Record fixed : Type := mkFixed { fcOrder : list candidate; fcMax : nat; fcMin : Z }.

(** lines 7-15. *)
Definition fixedNew (maxRefinements : nat) (q : Z) : fixed := mkFixed [] maxRefinements q.

(** lines 17-18. *)
Definition fixedCopy (c : fixed) : fixed := fixedNew (fcMax c) (fcMin c).

(** lines 36-38. *)
Definition fixedIsImprovement (k : learner) (x : candidate) (c : fixed) : bool := compare k (cQuality x) (fcMin c).

(** [order_.back()]; undefined if empty. *)
Definition back {A} (l : list A) : option A := aget l (length l - 1).

(** lines 40-62. [sort] is the result of [std::sort] with the comparison of line 57. *)
Definition fixedPush (sort : list candidate -> list candidate) (x : candidate) (c : fixed) : option fixed :=
  let* order :=
    (if length (fcOrder c) <? fcMax c then Some (fcOrder c ++ [x])
     else aset (fcOrder c) (length (fcOrder c) - 1) x) in
  let order' := sort order in
  let* worst := back order' in
  Some (mkFixed order' (fcMax c) (cQuality worst)).

(** See above (refinement_comparator_fixed.hpp, lines 40-62; refinement_comparator_fixed.hpp, line 57). *)
Definition fixedEvaluate (k : learner) (sort : list candidate -> list candidate) (x : candidate) (c : fixed)
  : option fixed :=
  if fixedIsImprovement k x c then fixedPush sort x c else Some c.

(** lines 74-108: [budget] is [maxRefinements_ - n]; the three loops are written as a recursion that returns [result] and
    the remaining elements of [tmp]. *)
Fixpoint mergeOrders (k : learner) (budget : nat) (o1 o2 : list candidate) : bool * list candidate :=
  match budget with
  | O => (false, [])
  | S b =>
      match o1, o2 with
      | x :: o1', y :: o2' =>
          if compare k (cQuality x) (cQuality y)
          then let (r, l) := mergeOrders k b o1' o2 in (r, x :: l)
          else let (_, l) := mergeOrders k b o1 o2' in (true, y :: l)
      | x :: o1', [] => let (r, l) := mergeOrders k b o1' [] in (r, x :: l)
      | [], y :: o2' => let (_, l) := mergeOrders k b [] o2' in (true, y :: l)
      | [], [] => (false, [])
      end
  end.

(** lines 64-125. *)
Definition fixedMerge (k : learner) (c other : fixed) : option (bool * fixed) :=
  let (result, order) := mergeOrders k (fcMax c) (fcOrder c) (fcOrder other) in
  match order with
  | [] => Some (result, mkFixed [] (fcMax c) (fcMin c))
  | _ => let* worst := back order in Some (result, mkFixed order (fcMax c) (cQuality worst))
  end.

(** ** Search over several features *)

(** rule_refinement_statistics_based.cpp, lines 26-69, executed by a single thread. [features]: for each of the sampled
    features, the refinements considered by the search, in the order in which they are evaluated. The search does not
    depend on the comparator in any other way. *)
Definition findRefinement {C} (copy : C -> C) (evaluate : candidate -> C -> option C)
    (merge : C -> C -> option (bool * C)) (features : list (list candidate)) (comparator : C) : option (bool * C) :=
  let entries := map (fun _ => copy comparator) features in
  let* entries' :=
    forN (length features) 0 (fun i entries =>
      let* candidates := aget features i in
      let* entry := aget entries i in
      let* entry' := forL candidates evaluate entry in
      aset entries i entry') entries in
  forN (length features) 0 (fun i '(found, comparator) =>
    let* entry := aget entries' i in
    let* (merged, comparator') := merge comparator entry in
    Some (found || merged, comparator')) (false, comparator).

(** See above (rule_refinement_statistics_based.cpp, lines 26-69). *)
Definition findSingle (k : learner) : list (list candidate) -> single -> option (bool * single) :=
  findRefinement singleCopy (singleEvaluate k) (singleMerge k).
(** See above (rule_refinement_statistics_based.cpp, lines 26-69). *)
Definition findFixed (k : learner) (sort : list candidate -> list candidate)
  : list (list candidate) -> fixed -> option (bool * fixed) :=
  findRefinement fixedCopy (fixedEvaluate k sort) (fixedMerge k).

(** *** Parallel execution *)

(** The state shared by the threads that execute the loop in lines 50-59. [V]: feature vectors. [psCache]:
    [featureSpace_.cache_] (feature_space_tabular.cpp, line 323), by feature. [psFiltered]: [cacheFiltered_] (line 156), by
    feature: the filtered vector, if any, and its number of conditions. [psPending]: the refinements that remain to be
    evaluated, by position in the sampled features. [psEntries]: the comparators (line 10), by position. *)
Record pstate (V C : Type) : Type :=
  mkPState { psCache : list (option V); psFiltered : list (option V * nat); psPending : list (list candidate);
             psEntries : list C }.
Arguments mkPState {V C}. Arguments psCache {V C}. Arguments psFiltered {V C}. Arguments psPending {V C}.
Arguments psEntries {V C}.

(** The steps of a thread: [Invoke i] is line 54, [Evaluate i] evaluates the next refinement in line 57. *)
Inductive action : Type := Invoke (i : nat) | Evaluate (i : nat).

Section Parallel.
Context {V C : Type}.
(** [features]: the sampled features. [create f]: the result of [createFeatureVector] (feature_space_tabular.cpp, line
    123). [filtered]: the result of [createFilteredFeatureVector] for the current coverage mask (line 134).
    [numModifications]: line 131. [candidates f v]: the refinements considered when searching the vector [v]. *)
Variables (features : list nat) (create : nat -> V) (filtered : V -> V) (numModifications : nat)
  (candidates : nat -> V -> list candidate) (evaluate : candidate -> C -> option C).

(** feature_space_tabular.cpp, lines 110-141. *)
Definition invoke (i : nat) (st : pstate V C) : option (pstate V C) :=
  let* f := aget features i in
  let* (vectorPtr, numConditions) := aget (psFiltered st) f in
  let* (featureVector, cache) :=
    match vectorPtr with
    | Some v => Some (v, psCache st)
    | None =>
        let* cached := aget (psCache st) f in
        match cached with
        | Some v => Some (v, psCache st)
        | None => let* cache := aset (psCache st) f (Some (create f)) in Some (create f, cache)
        end
    end in
  if numConditions <? numModifications then
    let* filteredCache := aset (psFiltered st) f (Some (filtered featureVector), numModifications) in
    let* pending := aset (psPending st) i (candidates f (filtered featureVector)) in
    Some (mkPState cache filteredCache pending (psEntries st))
  else
    let* pending := aset (psPending st) i (candidates f featureVector) in
    Some (mkPState cache (psFiltered st) pending (psEntries st)).

(** One step of [searchForRefinement] (line 22 of rule_refinement_statistics_based.cpp). *)
Definition evaluateNext (i : nat) (st : pstate V C) : option (pstate V C) :=
  let* pending := aget (psPending st) i in
  match pending with
  | [] => None
  | x :: rest =>
      let* entry := aget (psEntries st) i in
      let* entry' := evaluate x entry in
      let* entries := aset (psEntries st) i entry' in
      let* pending' := aset (psPending st) i rest in
      Some (mkPState (psCache st) (psFiltered st) pending' entries)
  end.

(** See above (rule_refinement_statistics_based.cpp, line 22). *)
Definition execute (a : action) (st : pstate V C) : option (pstate V C) :=
  match a with Invoke i => invoke i st | Evaluate i => evaluateNext i st end.

(** Lines 38-43 and feature_space_tabular.cpp, lines 186-199: the comparators are copied and the entries of the caches
    exist for all sampled features before the parallel loop starts. *)
Definition parallelInit (copy : C -> C) (comparator : C) (cache : list (option V))
    (cacheFiltered : list (option V * nat)) : pstate V C :=
  mkPState cache cacheFiltered (map (fun _ => []) features) (map (fun _ => copy comparator) features).

(** Lines 62-65: merging after the parallel loop. *)
Definition parallelMerge (merge : C -> C -> option (bool * C)) (entries : list C) (comparator : C)
  : option (bool * C) :=
  forN (length features) 0 (fun i '(found, comparator) =>
    let* entry := aget entries i in
    let* (merged, comparator') := merge comparator entry in
    Some (found || merged, comparator')) (false, comparator).
End Parallel.

(** ** Greedy top-down rule induction *)

(** rule_induction_top_down_greedy.cpp, lines 74-105. [search n conditions outputs]: the refinements considered by the
    search for the [n]-th sample of features, if the rule has the given conditions and may predict for the given outputs.
    [fuel] bounds the number of iterations. The sorting of the head (line 87) is left out. *)
Fixpoint greedyLoop (fuel : nat) (k : learner) (minCoverage maxConditions maxHeadRefinements : nat)
    (search : nat -> list candidate -> list nat -> list (list candidate)) (n : nat) (conditions : list candidate)
    (outputs : list nat) (comparator : single) : option (list candidate * single) :=
  match fuel with
  | O => None
  | S fuel' =>
      if (maxConditions =? 0) || (length conditions <? maxConditions) then
        let* (found, comparator') := findSingle k (search n conditions outputs) comparator in
        if found then
          let* best := scBest comparator' in
          let conditions' := conditions ++ [best] in
          let outputs' :=
            if (0 <? maxHeadRefinements) && (maxHeadRefinements <=? length conditions') then cOutputs best else outputs in
          if cCovered best <=? minCoverage then Some (conditions', comparator')
          else greedyLoop fuel' k minCoverage maxConditions maxHeadRefinements search (n + 1) conditions' outputs'
                 comparator'
        else Some (conditions, comparator')
      else Some (conditions, comparator)
  end.

(** lines 55-110: the conditions and the refinement that provides the head, if any. *)
Definition growGreedy (fuel : nat) (k : learner) (minCoverage maxConditions maxHeadRefinements : nat)
    (search : nat -> list candidate -> list nat -> list (list candidate)) (outputs : list nat)
  : option (list candidate * option candidate) :=
  let* (conditions, comparator) :=
    greedyLoop fuel k minCoverage maxConditions maxHeadRefinements search 0 [] outputs singleNew in
  Some (conditions, scBest comparator).

(** ** Beam search *)

(** rule_induction_top_down_beam_search.cpp, lines 15-40: the conditions, the quality of the head and the outputs for which
    refinements may predict ([None]: null). *)
Record entry : Type := mkEntry { beConditions : list candidate; beQuality : Z; beOutputs : option (list nat) }.

Section Beam.
Variables (k : learner) (sortC : list candidate -> list candidate) (sortE : list entry -> list entry)
  (beamWidth minCoverage : nat) (search : nat -> list candidate -> list nat -> list (list candidate)).

(** lines 42-51. *)
Definition initializeEntry (outputs : list nat) (keepHead : bool) (x : candidate) : entry :=
  mkEntry [x] (cQuality x) (Some (if keepHead then cOutputs x else outputs)).

(** lines 53-67. *)
Definition refinedEntry (old : entry) (outputs : list nat) (keepHead : bool) (x : candidate) : entry :=
  mkEntry (beConditions old ++ [x]) (cQuality x)
    (if cCovered x <=? minCoverage then None else Some (if keepHead then cOutputs x else outputs)).

(** lines 69-74. *)
Definition keptEntry (old : entry) : entry := mkEntry (beConditions old) (beQuality old) None.

(** lines 203-207, with [updateOrder] (lines 76-83): the last entry is overwritten and the entries are sorted. *)
Definition replaceLast (e : entry) (newOrder : list entry) : option (list entry * Z) :=
  let* order := aset newOrder (length newOrder - 1) e in
  let order' := sortE order in
  let* worst := back order' in
  Some (order', beQuality worst).

(** lines 195-208 and 215-226. *)
Definition includeRefinement (e : entry) (st : list entry * Z) : option (list entry * Z) :=
  let '(newOrder, minQ) := st in
  if length newOrder <? beamWidth then Some (newOrder ++ [e], minQ) else replaceLast e newOrder.

(** lines 170-245. The state consists of [newOrder], [minQuality], [result] and the number of samples of features drawn so
    far. *)
Definition refineEntry (keepHeads : bool) (e : entry) (st : list entry * Z * bool * nat)
  : option (list entry * Z * bool * nat) :=
  let '(newOrder, minQ, result, n) := st in
  let* (found, n', newOrder, minQ, result) :=
    match beOutputs e with
    | Some outputs =>
        let* (found, comparator) :=
          findFixed k sortC (search n (beConditions e) outputs) (fixedNew beamWidth minQ) in
        if found then
          let* (newOrder', minQ') :=
            forL (fcOrder comparator) (fun x => includeRefinement (refinedEntry e outputs keepHeads x)) (newOrder, minQ) in
          Some (true, n + 1, newOrder', minQ', true)
        else Some (false, n + 1, newOrder, minQ, result)
    | None => Some (false, n, newOrder, minQ, result)
    end in
  if found : bool then Some (newOrder, minQ, result, n') else
  if length newOrder <? beamWidth then Some (newOrder ++ [keptEntry e], minQ, result, n') else
  if negb (compare k minQ (beQuality e)) then
    let* (newOrder', minQ') := replaceLast (keptEntry e) newOrder in Some (newOrder', minQ', result, n')
  else Some (newOrder, minQ, result, n').

(** lines 157-250. *)
Definition refineBeam (keepHeads : bool) (order : list entry) (n : nat) : option (bool * list entry * nat) :=
  let* worst := back order in
  let* (newOrder, _, result, n') := forL order (refineEntry keepHeads) ([], beQuality worst, false, n) in
  Some (result, newOrder, n').

(** lines 340-351. [fuel] bounds the number of iterations. *)
Fixpoint beamLoop (fuel maxConditions maxHeadRefinements searchDepth : nat) (order : list entry) (n : nat)
  : option (list entry) :=
  match fuel with
  | O => None
  | S fuel' =>
      if (maxConditions =? 0) || (searchDepth <? maxConditions) then
        let keepHeads := (0 <? maxHeadRefinements) && (maxHeadRefinements <=? searchDepth + 1) in
        let* (found, order', n') := refineBeam keepHeads order n in
        if found : bool then beamLoop fuel' maxConditions maxHeadRefinements (searchDepth + 1) order' n' else Some order'
      else Some order
  end.

(** lines 318-360, with the constructor in lines 116-133 and [getBestEntry] (lines 257-259). The result is the best entry,
    or [None] if no rule has been found. *)
Definition growBeam (fuel maxConditions maxHeadRefinements : nat) (outputs : list nat) : option (option entry) :=
  let* (found, comparator) := findFixed k sortC (search 0 [] outputs) (fixedNew beamWidth minQuality) in
  if found : bool then
    let keepHeads := maxHeadRefinements =? 1 in
    let order := map (initializeEntry outputs keepHeads) (fcOrder comparator) in
    let* order' := beamLoop fuel maxConditions maxHeadRefinements 1 order 1 in
    let* best := aget order' 0 in Some (Some best)
  else Some None.
End Beam.
