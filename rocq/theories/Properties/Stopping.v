(** Properties C23-C26, C42, C43, C71-C73: stopping criteria, assemblage of rules, removal of unused rules. *)
From Coq Require Import ZArith QArith Arith List Bool Lia.
From Verif Require Import Lib.Arr Model.Containers Model.Rules Model.Stopping Spec.Containers Spec.Rules Spec.Stopping
  Proofs.Stopping Proofs.Pruning Proofs.StoppingFindings.
Import ListNotations.
Open Scope nat_scope.

(** ** C23 *)
Theorem C23_combined_criteria :
  forall (E C : Type) (test : E -> nat -> C -> option (result * C)) (e : E) (numRules : nat) (criteria : list C)
    (outcomes : list (result * C)),
    Forall2 (fun c o => test e numRules c = Some o) criteria outcomes ->
    listTest test e numRules criteria =
      Some (mkResult (existsb (fun o => rStop (fst o)) outcomes)
              (last_reported (map (fun o => rNumUsed (fst o)) outcomes)),
            map snd outcomes).
Proof. exact @C23_lemma. Qed.
Print Assumptions C23_combined_criteria.

Example C23_example :
  let e := mkEnv 0 (fun i => inject_Z (Z.of_nat i)) in
  let post := CPost (Single [1; 2]) false 3 1 (Some 2%Q, 4) in
  listTest critTest e 6 [CSize 6; post; CTime 5 None] =
    Some (mkResult true 6, [CSize 6; CPost (Single [1; 2]) false 3 1 (Some (3 # 2), 6); CTime 5 (Some 0%Z)]).
Proof. vm_compute. reflexivity. Qed.

(** ** C24 *)
Theorem C24_at_most_max_rules :
  forall (R T : Type) (m : nat) (criteria : list crit) (envOf : T -> env) (induce : T -> option R * T)
    (default : option R) (t : T),
    1 <= m -> In (CSize m) criteria ->
    let test t n cs := listTest critTest (envOf t) n cs in
    induceRules test induce (m + 1) default t criteria bEmpty <> Some None /\
    (forall fuel b t', induceRules test induce fuel default t criteria bEmpty = Some (Some (b, t')) ->
       bGetNumRules b <= m).
Proof. exact @C24_lemma. Qed.
Print Assumptions C24_at_most_max_rules.

Theorem C24_exactly_max_rules :
  forall (R T : Type) (m : nat) (envOf : T -> env) (induce : T -> option R * T) (default : option R) (t : T),
    1 <= m -> (forall t, exists rule t', induce t = (Some rule, t')) ->
    exists b t', induceRules (fun t n cs => listTest critTest (envOf t) n cs) induce (m + 1) default t [CSize m] bEmpty =
      Some (Some (b, t')) /\ bGetNumRules b = m /\ bNumUsed b = 0.
Proof. exact @C24_exact_lemma. Qed.
Print Assumptions C24_exactly_max_rules.

Example C24_example :
  let envOf (t : nat) := mkEnv (Z.of_nat t * 400000000) (fun _ => 1%Q) in
  let induce (t : nat) := (Some t, t + 1) in
  induceRules (fun t n cs => listTest critTest (envOf t) n cs) induce 10 (Some 99) 0 [CSize 4] bEmpty =
    Some (Some (mkBuilder (Some 99) [0; 1; 2] 0, 3)) /\
  induceRules (fun t n cs => listTest critTest (envOf t) n cs) induce 10 (Some 99) 0 [CTime 1 None; CSize 9] bEmpty =
    Some (Some (mkBuilder (Some 99) [0; 1; 2] 0, 3)).
Proof. split; vm_compute; reflexivity. Qed.

(** ** C25 *)
Theorem C25_post_pruning :
  forall (minRules interval : nat) (score : nat -> Q) (start cnt : nat),
    1 <= minRules -> 1 <= interval ->
    let evaluated := post_evaluated minRules interval start cnt in
    exists rs st,
      runTests (fun n => postTest minRules interval (score n) n) cnt start (postInit minRules) = Some (rs, st) /\
      length rs = cnt /\ (forall r, In r rs -> rStop r = false) /\
      let kept := last_reported (map rNumUsed rs) in
      (evaluated = [] -> kept = 0) /\ (evaluated <> [] -> first_best score evaluated kept).
Proof. exact C25_lemma. Qed.
Print Assumptions C25_post_pruning.

(** The effect on training: the number of used rules of the final model. *)
Theorem C25_training_with_post_pruning :
  forall (R T : Type) (p : partition) (h : bool) (minRules interval : nat) (l1 l2 : list crit) (envOf : T -> env)
    (induce : T -> option R * T) (default : option R) (t : T) (fuel : nat) (b : builder R) (t' : T),
    1 <= minRules -> 1 <= interval -> Forall silent l1 -> Forall silent l2 ->
    induceRules (fun t n cs => listTest critTest (envOf t) n cs) induce fuel default t
      (l1 ++ CPost p h minRules interval (postInit minRules) :: l2) bEmpty = Some (Some (b, t')) ->
    exists ts : nat -> T, ts 0 = t /\
      (forall i rule, nth_error (bRules b) i = Some rule -> induce (ts i) = (Some rule, ts (i + 1))) /\
      forall score : nat -> Q,
        let n0 := match default with Some _ => 1 | None => 0 end in
        (forall i, i <= length (bRules b) ->
           evaluatePartition p h (eEvaluatePrediction (envOf (ts i))) = Some (score (n0 + i))) ->
        let evaluated := post_evaluated minRules interval n0 (length (bRules b) + 1) in
        (evaluated = [] -> bNumUsed b = 0) /\ (evaluated <> [] -> first_best score evaluated (bNumUsed b)).
Proof. exact @C25_training_lemma. Qed.
Print Assumptions C25_training_with_post_pruning.

(** The quality of a model is the mean over the examples of the holdout set, if there is one and it should be used. *)
Theorem C25_evaluation_is_the_mean :
  forall (p : partition) (h : bool) (f : nat -> Q),
    let indices := match p with Single l => l | Bi first second => if h then second else first end in
    exists mean, evaluatePartition p h f = Some mean /\
      (mean * inject_Z (Z.of_nat (length indices)) == Qsum (map f indices))%Q.
Proof. exact evaluate_lemma. Qed.
Print Assumptions C25_evaluation_is_the_mean.

Example C25_example :
  let scores := [9; 8; 3; 5; 3; 7]%Z in
  let envOf (t : nat) := mkEnv 0 (fun i => inject_Z (nth t scores 0%Z + Z.of_nat i)) in
  let induce (t : nat) := (Some t, t + 1) in
  induceRules (fun t n cs => listTest critTest (envOf t) n cs) induce 10 None 0
    [CPost (Bi [7] [2; 0]) true 1 1 (postInit 1); CSize 5] bEmpty =
    Some (Some (mkBuilder None [0; 1; 2; 3; 4] 2, 5)) /\
  post_evaluated 1 1 0 6 = [1; 2; 3; 4; 5].
Proof. split; vm_compute; reflexivity. Qed.

(** ** C26 *)
Theorem C26_pre_pruning :
  forall (c : preConfig) (score : nat -> Q) (start cnt : nat) (junkPast junkRecent : list Q) (junkBest : nat),
    1 <= pcUpdateInterval c -> 1 <= pcStopInterval c -> 1 <= pcNumPast c -> 1 <= pcNumCurrent c ->
    length junkPast = pcNumPast c -> length junkRecent = pcNumCurrent c ->
    exists rs st,
      runTests (fun n => preTest c (score n) n) cnt start (preInit c junkPast junkRecent junkBest) = Some (rs, st) /\
      length rs = cnt /\
      (forall i res, nth_error rs i = Some res ->
         let r := start + i in
         (must_stop c score start r /\ (forall r', start <= r' < r -> ~ must_stop c score start r') /\
          exists n, res = mkResult (pcRemoveUnused c) n /\ first_best score (pre_candidates c start r) n) \/
         ((~ must_stop c score start r \/ exists r', start <= r' < r /\ must_stop c score start r') /\
          res = noResult)) /\
      (forall r, must_stop c score start r -> pcMinRules c < r).
Proof. exact C26_lemma. Qed.
Print Assumptions C26_pre_pruning.

Example C26_example :
  let score r := nth r [9; 8; 7; 6; 5; 3; 4; 4; 4; 4; 4]%Q 0%Q in
  let c := mkPreConfig AggMean true 3 1 1 2 2 (1 # 100) in
  exists st, runTests (fun n => preTest c (score n) n) 11 0 (preInit c [0; 0]%Q [0; 0]%Q 77) =
    Some (repeat noResult 8 ++ [mkResult true 5; noResult; noResult], st).
Proof. eexists. vm_compute. reflexivity. Qed.

(** ** C42 *)
Theorem C42_sequential_assemblage :
  forall (R T C : Type) (test : T -> nat -> C -> option (result * C)) (induce : T -> option R * T)
    (fuel : nat) (default : option R) (t : T) (c : C) (b b' : builder R) (t' : T),
    let n0 := match default with Some _ => 1 | None => 0 end in
    induceRules test induce fuel default t c b = Some (Some (b', t')) <->
    exists ts cs rules results, length rules < fuel /\ ts 0 = t /\ cs 0 = c /\
      training_run test induce n0 ts cs rules results t' /\
      b' = mkBuilder (match default with Some r => Some r | None => bDefault b end) (bRules b ++ rules)
             (last_reported (map rNumUsed results)).
Proof. exact @C42_lemma. Qed.
Print Assumptions C42_sequential_assemblage.

(** Training ends as the third induction of a rule fails. *)
Example C42_example :
  let induce (t : nat) := (if t <? 2 then Some (t + 10) else None, t + 1) in
  let test (t n c : nat) := Some (mkResult false (if n =? 2 then 2 else 0), c + n) in
  induceRules test induce 5 (Some 99) 0 0 bEmpty = Some (Some (mkBuilder (Some 99) [10; 11] 2, 3)).
Proof. reflexivity. Qed.

(** ** C43 *)
Theorem C43_unused_rule_removal :
  forall (R : Type) (b : builder R), bNumUsed b <= bGetNumRules b ->
    exists b', removeUnusedRules b = Some b' /\
      bDefault b' = bDefault b /\ bNumUsed b' = 0 /\
      (exists k, bRules b' = firstn k (bRules b)) /\
      (forall precedence, rlVisit (bBuild precedence b') = rlVisitUsed (bBuild precedence b) /\
         rlVisitUsed (bBuild precedence b') = rlVisitUsed (bBuild precedence b) /\
         rlGetNumRules (bBuild precedence b') = rlGetNumUsed (bBuild precedence b)).
Proof. exact @C43_lemma. Qed.
Print Assumptions C43_unused_rule_removal.

Example C43_example :
  removeUnusedRules (mkBuilder (Some 9) [1; 2; 3; 4] 3) = Some (mkBuilder (Some 9) [1; 2] 0) /\
  rlVisit (bBuild false (mkBuilder (Some 9) [1; 2] 0)) = Some [1; 2; 9].
Proof. split; reflexivity. Qed.

(** ** C71 *)
Theorem C71_time_limit :
  forall (limit : Z) (clock : nat -> Z) (start cnt : nat),
    (1 <= limit)%Z -> (forall i j : nat, i <= j -> (clock i <= clock j)%Z) ->
    let test n st := let '(r, st) := timeTest limit (clock n) st in Some (r, st) in
    exists rs st, runTests test cnt start None = Some (rs, st) /\ length rs = cnt /\
      forall i r, nth_error rs i = Some r ->
        (rStop r = true <-> (clock (start + i)%nat - clock start >= limit * 1000000000)%Z) /\ rNumUsed r = 0.
Proof. exact time_lemma. Qed.
Print Assumptions C71_time_limit.

Example C71_example :
  let clock (i : nat) := (Z.of_nat i * 700000000)%Z in
  let test n st := let '(r, st) := timeTest 2 (clock n) st in Some (r, st) in
  exists st, runTests test 5 1 None =
    Some ([noResult; noResult; noResult; mkResult true 0; mkResult true 0], st).
Proof. eexists. reflexivity. Qed.

(** ** C72: false; full statement: if pre-pruning is configured to remove unused rules, training ends as soon as the
    criterion determines the number of rules to be used. *)
Theorem C72_pre_pruning_ends_training_refuted :
  exists (configured : preConfig) (junk : bool) (score : nat -> Q),
    pcRemoveUnused configured = true /\
    forall junkBest, exists rs st,
      runTests (fun n => preTest (preFactory junk configured) (score n) n) 5 0
        (preInit (preFactory junk configured) [0%Q] [0%Q] junkBest) = Some (rs, st) /\
      (exists r, In r rs /\ rNumUsed r <> 0) /\ forall r, In r rs -> rStop r = false.
Proof. exact remove_refuted. Qed.
Print Assumptions C72_pre_pruning_ends_training_refuted.

(** ** C73: false; full statement: no accepted configuration of pre-pruning results in undefined behaviour. *)
Theorem C73_pre_pruning_configurations_refuted :
  exists c, setStopInterval preDefault 0 = Some c /\
    forall junkPast junkRecent junkBest, length junkPast = 50 -> length junkRecent = 50 ->
      runTests (fun n => preTest c 1%Q n) 102 0 (preInit c junkPast junkRecent junkBest) = None.
Proof. exact interval_refuted. Qed.
Print Assumptions C73_pre_pruning_configurations_refuted.

(** Missing: a stop interval of zero. All other configurations that can be set up by calling the setters, even if some of the
    calls fail, have values in the documented ranges and do not result in undefined behaviour. *)
Theorem C73_configurations_partial :
  forall (calls : list preCall) (score : nat -> Q) (start cnt : nat) (junkPast junkRecent : list Q) (junkBest : nat),
    let c := fold_left applyPreCall calls preDefault in
    (1 <= pcMinRules c /\ 1 <= pcUpdateInterval c /\ 1 <= pcNumPast c /\ 1 <= pcNumCurrent c /\
     (0 <= pcMinImprovement c <= 1)%Q) /\
    (pcStopInterval c <> 0 -> length junkPast = pcNumPast c -> length junkRecent = pcNumCurrent c ->
     exists rs st,
       runTests (fun n => preTest c (score n) n) cnt start (preInit c junkPast junkRecent junkBest) = Some (rs, st)).
Proof. exact configurations_defined. Qed.
Print Assumptions C73_configurations_partial.

(* The third and the fourth call fail. *)
Example C73_configurations_partial_example :
  let c := fold_left applyPreCall [SetUpdate 2; SetStop 4; SetStop 5; SetNumPast 0; SetNumPast 1; SetNumCurrent 1; SetMinRules 1] preDefault in
  pcStopInterval c = 4 /\ pcNumPast c = 1 /\
  exists rs st, runTests (fun n => preTest c 1%Q n) 20 0 (preInit c [0%Q] [0%Q] 7) = Some (rs, st) /\
    In (mkResult true 6) rs.
Proof. vm_compute. split; [reflexivity|]. split; [reflexivity|]. eexists. eexists. split; [reflexivity|]. cbn. tauto. Qed.

(** The stop interval can only be set to a multiple of the update interval. *)
Theorem C73_stop_interval_partial :
  forall (before after : list preCall) (n : nat),
    let c := fold_left applyPreCall before preDefault in
    let c' := fold_left applyPreCall (before ++ SetStop n :: after) preDefault in
    Forall (fun call => match call with SetUpdate _ | SetStop _ => False | _ => True end) after ->
    (Nat.divide (pcUpdateInterval c') n -> pcStopInterval c' = n) /\
    (~ Nat.divide (pcUpdateInterval c') n -> pcStopInterval c' = pcStopInterval c) /\
    pcUpdateInterval c' = pcUpdateInterval c.
Proof. exact stop_interval_multiple. Qed.
Print Assumptions C73_stop_interval_partial.

Example C73_stop_interval_partial_example :
  let c := fold_left applyPreCall ([SetUpdate 3; SetStop 6] ++ SetStop 7 :: [SetMinRules 5]) preDefault in
  pcStopInterval c = 6 /\ pcUpdateInterval c = 3 /\ pcMinRules c = 5.
Proof. repeat split. Qed.

(** If the update interval is set afterwards, the stop interval may not be a multiple of it. *)
Theorem C73_multiple_refuted :
  exists calls, Forall (fun call => match call with SetStop 0 => False | _ => True end) calls /\
    let c := fold_left applyPreCall calls preDefault in ~ Nat.divide (pcUpdateInterval c) (pcStopInterval c).
Proof. exact stop_interval_other. Qed.
Print Assumptions C73_multiple_refuted.
