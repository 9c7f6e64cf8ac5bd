(** Properties C19-C22, C44, C45, C70: rules, rule lists and prediction. *)
From Coq Require Import ZArith NArith Arith List Bool Lia Permutation.
From Verif Require Import Lib.Arr Model.Rules Model.Prediction Spec.Rules Spec.Interleaving
  Proofs.Rules Proofs.Prediction Proofs.Parallel Proofs.RulesFindings.
Import ListNotations.
Open Scope nat_scope.

(** ** C19 *)
Theorem C19_covers_iff_all_conditions_hold :
  forall (row : list fval) (b : cbody),
    Forall well_typed (bodyConditions b) -> Forall (evaluable row) (bodyConditions b) ->
    exists r, coversDense row (ConjunctiveBody b) = Some r /\
      (r = true <-> Forall (holds row) (bodyConditions b)).
Proof. exact cbodyDense_ok. Qed.
Print Assumptions C19_covers_iff_all_conditions_hold.

Example C19_example :
  let b := mkBody [(0, Fin 10)] [(0, Fin 3)] [] [] [(1, 2%Z)] [] in
  Forall well_typed (bodyConditions b) /\
  Forall (evaluable [Fin 5; Fin (2 * 2 ^ 149)]) (bodyConditions b) /\
  coversDense [Fin 5; Fin (2 * 2 ^ 149)] (ConjunctiveBody b) = Some true /\
  coversDense [Fin 11; Fin (2 * 2 ^ 149)] (ConjunctiveBody b) = Some false /\
  coversDense [Fin 5; Fin (3 * 2 ^ 149)] (ConjunctiveBody b) = Some false.
Proof.
  split; [repeat constructor|]. split.
  - repeat constructor; eexists; (split; [reflexivity|]); vm_compute; intuition discriminate.
  - vm_compute. auto.
Qed.

Theorem C19_sparse_equals_dense :
  forall (V : Type) (add : V -> V -> V) (entries : list (nat * fval)) (sparseValue : fval) (junk row : list fval)
    (l : ruleList (rule V)) (maxRules : nat) (scores : list V),
    same_row (length junk) sparseValue entries row ->
    rlNumUsed l <= rlGetNumRules l -> (N.of_nat (rlGetNumRules l) < 2 ^ 32)%N ->
    applyRulesSparse add entries sparseValue junk (rlUsedBegin l maxRules) (rlUsedEnd l maxRules) scores =
    applyRulesDense add row (rlUsedBegin l maxRules) (rlUsedEnd l maxRules) scores.
Proof. exact @C19_used. Qed.
Print Assumptions C19_sparse_equals_dense.

Example C19_sparse_example :
  let r1 := (ConjunctiveBody (mkBody [(0, Fin 3)] [] [] [] [] []), CompleteHead [1; 2]) in
  let r2 := (ConjunctiveBody (mkBody [] [(1, Fin 6)] [] [] [] []), PartialHead [(1, 5)]) in
  let r3 := (ConjunctiveBody (mkBody [(2, Fin 0)] [] [] [] [] []), PartialHead [(0, 7)]) in
  let l := mkRuleList None [r1; r2; r3] 0 true in
  same_row 3 (Fin 0) [(1, Fin 8)] [Fin 0; Fin 8; Fin 0] /\
  applyRulesSparse Nat.add [(1, Fin 8)] (Fin 0) [Fin 9; NaN; Fin (-4)] (rlUsedBegin l 0) (rlUsedEnd l 0) [0; 0] =
    Some [8; 7].
Proof.
  split; [|reflexivity]. split; [reflexivity|]. split.
  - intros f v [[= <- <-]|[]]. reflexivity.
  - intros [|[|[|f]]] H H'; simpl in *; auto; try lia; try tauto.
Qed.

(** ** C20 *)
Theorem C20_condition_list_to_body :
  forall (junkF : nat * fval) (junkI : nat * Z) (ops : list cl_op) (conds : list condition),
    surviving [] ops = Some conds -> Forall well_typed conds ->
    exists l b, cl_run clEmpty ops = Some l /\ clCreateBody junkF junkI l = Some b /\
      (forall c, with_comparator c (bodyConditions b) = with_comparator c conds) /\
      Permutation (bodyConditions b) conds /\
      forall row, Forall (evaluable row) conds ->
        exists r, cbodyCoversDense row b = Some r /\ (r = true <-> Forall (holds row) conds).
Proof. exact C20_lemma. Qed.
Print Assumptions C20_condition_list_to_body.

Example C20_example :
  let c1 := mkCond 0 NUMERICAL_LEQ (TFloat (Fin 4)) in
  let c2 := mkCond 1 NOMINAL_NEQ (TInt 7) in
  let c3 := mkCond 2 NUMERICAL_LEQ (TFloat (Fin 5)) in
  surviving [] [ClAdd c2; ClAdd c1; ClAdd c2; ClRemoveLast; ClAdd c3] = Some [c2; c1; c3] /\
  Forall well_typed [c2; c1; c3] /\
  exists l, cl_run clEmpty [ClAdd c2; ClAdd c1; ClAdd c2; ClRemoveLast; ClAdd c3] = Some l /\
    clCreateBody (9, NaN) (9, 9%Z) l = Some (mkBody [(0, Fin 4); (2, Fin 5)] [] [] [] [] [(1, 7%Z)]).
Proof. split; [reflexivity|]. split; [repeat constructor|]. eexists. split; reflexivity. Qed.

(** ** C21: false; full statement: for all histories, the copy yields the same body as the original. *)
Theorem C21_copied_condition_list_refuted :
  exists (ops : list cl_op) (conds : list condition) (l l' : condList),
    surviving [] ops = Some conds /\ Forall well_typed conds /\
    cl_run clEmpty ops = Some l /\ clCopy l = Some l' /\
    forall junkF junkI, exists b, clCreateBody junkF junkI l = Some b /\ clCreateBody junkF junkI l' = None.
Proof. exact copy_refuted_write. Qed.
Print Assumptions C21_copied_condition_list_refuted.

(** The copy of a list may also yield a body with a condition that nobody added: uninitialised memory. *)
Theorem C21_copied_condition_list_uninitialised_refuted :
  exists (ops : list cl_op) (conds : list condition) (l l' : condList),
    surviving [] ops = Some conds /\ Forall well_typed conds /\
    cl_run clEmpty ops = Some l /\ clCopy l = Some l' /\
    forall junkF junkI, exists b', clCreateBody junkF junkI l' = Some b' /\
      In (mkCond (fst junkI) NOMINAL_NEQ (TInt (snd junkI))) (bodyConditions b') /\
      length (bodyConditions b') = length conds + 1.
Proof. exact copy_refuted_read. Qed.
Print Assumptions C21_copied_condition_list_uninitialised_refuted.

(** What is true: the copy is faithful if there are as many [==] conditions as [!=] conditions. *)
Theorem C21_copied_condition_list_partial :
  forall (ops : list cl_op) (conds : list condition) (l : condList),
    surviving [] ops = Some conds -> cl_run clEmpty ops = Some l ->
    length (with_comparator NOMINAL_EQ conds) = length (with_comparator NOMINAL_NEQ conds) ->
    clCopy l = Some l.
Proof. exact copy_same_partial. Qed.
Print Assumptions C21_copied_condition_list_partial.

Example C21_partial_example :
  let c1 := mkCond 0 NUMERICAL_LEQ (TFloat (Fin 4)) in
  let c2 := mkCond 1 NOMINAL_EQ (TInt 7) in
  let c3 := mkCond 2 NOMINAL_NEQ (TInt 7) in
  exists l, surviving [] [ClAdd c1; ClAdd c2; ClAdd c3] = Some [c1; c2; c3] /\
    cl_run clEmpty [ClAdd c1; ClAdd c2; ClAdd c3] = Some l /\ clCopy l = Some l.
Proof. eexists. repeat split. Qed.

(** ** C22 *)
Theorem C22_rule_list_iteration :
  forall (R : Type) (precedence : bool) (ops : list (rl_op R)) (maxRules : nat),
    let l := fold_left rl_step ops (rlEmpty precedence) in
    let total := length (added_rules ops) + match last_default ops with Some _ => 1 | None => 0 end in
    let used := if last_used ops =? 0 then total else last_used ops in
    let limit n := if maxRules =? 0 then n else Nat.min n maxRules in
    let order := expected_order (last_default ops) (added_rules ops) precedence in
    last_used ops <= total ->
    rlGetNumRules l = total /\ rlGetNumUsed l = used /\
    rlVisit l = Some (order total) /\ length (order total) = total /\
    rlVisitUsed l = Some (order used) /\ length (order used) = used /\
    (forall S (f : R -> S -> option S) st,
       iterLoop (rlBegin l maxRules) (rlEnd l maxRules) f st = forL (order (limit total)) f st) /\
    (forall S (f : R -> S -> option S) st,
       iterLoop (rlUsedBegin l maxRules) (rlUsedEnd l maxRules) f st = forL (order (limit used)) f st).
Proof. exact C22_lemma. Qed.
Print Assumptions C22_rule_list_iteration.

Example C22_example :
  let ops := [RlRule 1; RlRule 2; RlDefault 9; RlRule 3; RlUsed 3] in
  let l p := fold_left rl_step ops (rlEmpty p) in
  rlVisit (l true) = Some [9; 1; 2; 3] /\ rlVisit (l false) = Some [1; 2; 3; 9] /\
  rlVisitUsed (l true) = Some [9; 1; 2] /\ rlVisitUsed (l false) = Some [1; 2; 9].
Proof. repeat split. Qed.

(** ** C44 *)
Theorem C44_parallel_prediction :
  forall (V O : Type) (add : V -> V -> V) (zero : V) (transform : list V -> O) (size : O -> N) (junk : fval)
    (m : featureMatrix) (l : ruleList (rule V)) (maxRules numOutputs : nat)
    (row : nat -> list fval) (scores : nat -> list V)
    (assignment : list (list nat)) (interleaved : list action) (buffers : list (list V)) (out : list O),
    rlNumUsed l <= rlGetNumRules l -> (N.of_nat (rlGetNumRules l) < 2 ^ 32)%N ->
    (forall i, i < fmRows m -> example_row m i (row i) /\
       score_of add (fun r => coversDense (row i) (fst r))
         (expected_order (rlDefault l) (rlRules l) (rlPrecedence l) (limitRules maxRules (rlGetNumUsed l)))
         (repeat zero numOutputs) = Some (scores i)) ->
    Permutation (concat assignment) (seq 0 (fmRows m)) ->
    length buffers = length assignment -> Forall (fun r => length r = numOutputs) buffers ->
    length out = fmRows m ->
    interleaving (threadPrograms assignment) interleaved ->
    exists s', execAll add zero transform size junk m (rlUsedBegin l maxRules) (rlUsedEnd l maxRules) interleaved
        (mkPState buffers (repeat 0%N (length assignment)) out) = Some s' /\
      psOut s' = map (fun i => transform (scores i)) (seq 0 (fmRows m)) /\
      reduceCounts (psCount s') =
        (fold_right N.add 0%N (map (fun i => size (transform (scores i))) (seq 0 (fmRows m))) mod 2 ^ 32)%N.
Proof. exact @C44_used. Qed.
Print Assumptions C44_parallel_prediction.

Example C44_example :
  let r1 := (ConjunctiveBody (mkBody [(0, Fin 3)] [] [] [] [] []), CompleteHead [1; 2]) in
  let l := mkRuleList (Some (EmptyBody, CompleteHead [10; 20])) [r1] 0 true in
  let m := DenseMatrix [[Fin 1]; [Fin 5]; [Fin 3]] in
  let il := [AZero 0; AZero 1; AScores 1 2; AScores 0 0; ATransform 0 0; ACount 0 0; AZero 0; ATransform 1 2;
             AScores 0 1; ATransform 0 1; ACount 1 2; ACount 0 1] in
  interleaving (threadPrograms [[0; 1]; [2]]) il /\
  exists s, execAll Nat.add 0 (fun x => x) (fun o => N.of_nat (length o)) NaN m (rlUsedBegin l 0) (rlUsedEnd l 0) il
    (mkPState [[7; 7]; [8; 8]] [0; 0]%N [[]; []; []]) = Some s /\
    psOut s = [[11; 22]; [10; 20]; [11; 22]] /\ reduceCounts (psCount s) = 6%N.
Proof.
  split.
  - simpl. unfold threadPrograms, threadProgram, exampleProgram; simpl.
    apply (il_step []); simpl. apply (il_step [_]); simpl. apply (il_step [_]); simpl.
    do 4 (apply (il_step []); simpl). apply (il_step [_]); simpl. do 2 (apply (il_step []); simpl).
    apply (il_step [_]); simpl. apply (il_step []); simpl. apply il_done. repeat constructor.
  - eexists. split; [vm_compute; reflexivity|]. split; reflexivity.
Qed.

(** Scores, which are accumulated into the result directly: one step per example, in any order. *)
Theorem C44_parallel_scores :
  forall (V : Type) (add : V -> V -> V) (zero : V) (junk : fval) (m : featureMatrix) (l : ruleList (rule V))
    (maxRules numOutputs : nat) (row : nat -> list fval) (scores : nat -> list V) (examples : list nat),
    rlNumUsed l <= rlGetNumRules l -> (N.of_nat (rlGetNumRules l) < 2 ^ 32)%N ->
    (forall i, i < fmRows m -> example_row m i (row i) /\
       score_of add (fun r => coversDense (row i) (fst r))
         (expected_order (rlDefault l) (rlRules l) (rlPrecedence l) (limitRules maxRules (rlGetNumUsed l)))
         (repeat zero numOutputs) = Some (scores i)) ->
    Permutation examples (seq 0 (fmRows m)) ->
    forL examples (fun i matrix =>
      let* row := aget matrix i in
      let* row := aggregateScores add junk m (rlUsedBegin l maxRules) (rlUsedEnd l maxRules) i row in
      aset matrix i row) (repeat (repeat zero numOutputs) (fmRows m)) = Some (map scores (seq 0 (fmRows m))) /\
    predictScores add zero junk m l numOutputs maxRules = Some (map scores (seq 0 (fmRows m))).
Proof. exact @C44_scores. Qed.
Print Assumptions C44_parallel_scores.

Example C44_scores_example :
  let r1 := (ConjunctiveBody (mkBody [(0, Fin 3)] [] [] [] [] []), CompleteHead [1; 2]) in
  let l := mkRuleList (Some (EmptyBody, CompleteHead [10; 20])) [r1] 0 true in
  predictScores Nat.add 0 NaN (DenseMatrix [[Fin 1]; [Fin 5]; [Fin 3]]) l 2 0 = Some [[11; 22]; [10; 20]; [11; 22]].
Proof. reflexivity. Qed.

(** ** C45 *)
Theorem C45_incremental_prediction :
  forall (V : Type) (add : V -> V -> V) (zero : V) (junk : fval) (m : featureMatrix) (l : ruleList (rule V))
    (numOutputs maxRules : nat) (row : nat -> list fval),
    rlNumUsed l <= rlGetNumRules l -> (N.of_nat (rlGetNumRules l) < 2 ^ 32)%N ->
    let n := limitRules maxRules (rlGetNumUsed l) in
    let order := expected_order (rlDefault l) (rlRules l) (rlPrecedence l) n in
    (forall i, i < fmRows m -> example_row m i (row i) /\
       exists s, score_of add (fun r => coversDense (row i) (fst r)) order (repeat zero numOutputs) = Some s) ->
    forall steps : list nat,
    exists p, incRun add junk m (incCreate zero m l numOutputs maxRules) steps = Some p /\
      incNumNext p = n - list_sum steps /\
      length (incMatrix p) = fmRows m /\
      (forall i, i < fmRows m -> nth_error (incMatrix p) i =
         score_of add (fun r => coversDense (row i) (fst r)) (firstn (list_sum steps) order)
           (repeat zero numOutputs)) /\
      (n <= list_sum steps -> predictScores add zero junk m l numOutputs maxRules = Some (incMatrix p)).
Proof. exact @C45_lemma. Qed.
Print Assumptions C45_incremental_prediction.

Example C45_example :
  let r1 := (ConjunctiveBody (mkBody [(0, Fin 3)] [] [] [] [] []), CompleteHead [1; 2]) in
  let r2 := (EmptyBody, CompleteHead [100; 200]) in
  let l := mkRuleList (Some (EmptyBody, CompleteHead [10; 20])) [r1; r2] 0 true in
  let m := DenseMatrix [[Fin 1]; [Fin 5]] in
  (exists p, incRun Nat.add NaN m (incCreate 0 m l 2 0) [1; 1] = Some p /\
     incMatrix p = [[11; 22]; [10; 20]] /\ incNumNext p = 1) /\
  (exists p, incRun Nat.add NaN m (incCreate 0 m l 2 0) [2; 0; 5] = Some p /\
     incMatrix p = [[111; 222]; [110; 220]] /\ incNumNext p = 0).
Proof. split; eexists; repeat split. Qed.

(** ** C70: false; full statement: a rule never covers an example if the value of one of the features the rule refers
    to is missing. (During training, such examples are uncovered, see C37.) *)
Theorem C70_missing_values_refuted :
  exists (row : list fval) (b : cbody),
    Forall well_typed (bodyConditions b) /\
    (exists c, In c (bodyConditions b) /\ nth_error row (cFeature c) = Some NaN) /\
    coversDense row (ConjunctiveBody b) = Some true.
Proof. exact missing_refuted. Qed.
Print Assumptions C70_missing_values_refuted.

(** What is true: conditions that use the operator [>] are not satisfied by missing values. *)
Theorem C70_missing_values_partial :
  forall (row : list fval) (b : cbody) (f : nat) (t : fval),
    In (f, t) (numericalGr b) -> nth_error row f = Some NaN -> coversDense row (ConjunctiveBody b) <> Some true.
Proof. exact missing_gr. Qed.
Print Assumptions C70_missing_values_partial.

Example C70_partial_example :
  coversDense [Fin 3; NaN] (ConjunctiveBody (mkBody [(0, Fin 4)] [(1, Fin 5)] [] [] [] [])) = Some false.
Proof. reflexivity. Qed.
