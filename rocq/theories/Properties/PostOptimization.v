(** Properties of the rules that result from sequential post-optimization. *)
From Coq Require Import ZArith QArith Arith List Bool Lia.
From Verif Require Import Lib.Arr Model.Refinement Model.Induction Model.Rules Model.Stopping Model.Training Spec.Stopping
  Spec.Induction Spec.Training Spec.PostOptimization Proofs.PostOptimization.
Import ListNotations.
Open Scope nat_scope.

(** ** C141: false; full statement: sequential post-optimization replaces each rule of the model with one that is learned with
    respect to the scores predicted by all other rules of the model. *)

(** Missing: global pruning. The rules result from those that are obtained without post-optimization. *)
Theorem C141_no_pruning_partial :
  forall (X C : Type) (test : list Z * X -> nat -> C -> option (result * C))
    (learn : list Z -> X -> option (srule * list bool) * X)
    (relearn : nat -> list Z -> srule -> option (srule * list bool))
    fuel numExamples default removeUnused numIterations x c model scores,
  learns numExamples learn -> relearns numExamples relearn ->
  (forall t m c r c', test t m c = Some (r, c') -> rNumUsed r = 0) ->
  fit test learn relearn fuel numExamples default removeUnused (Some numIterations) x c = Some (Some (model, scores)) ->
  exists learned learnedScores rules,
  fit test learn relearn fuel numExamples default removeUnused None x c = Some (Some (learned, learnedScores)) /\
  rlVisitUsed learned = Some (defaultRules default ++ rules) /\
  rlVisitUsed model = Some (defaultRules default ++ replaceAll numExamples numIterations relearn (defaultRules default) rules).
Proof. exact (@fit_optimized_all). Qed.
Print Assumptions C141_no_pruning_partial.

(** Two rules are learned and replaced with rules that predict the difference to the labels 10 and 20. *)
Example C141_no_pruning_partial_example :
  let test := fun (t : list Z * nat) n (cs : list crit) => listTest critTest (mkEnv 0%Z (fun _ => 0%Q)) n cs in
  let learn := fun (_ : list Z) (x : nat) =>
    (Some (if x =? 0 then (([[true; false]], 1%Z), [true; false]) else (([[true; true]; [false; true]], 2%Z), [false; true])),
     x + 1) in
  let relearn := fun (n : nat) (p : list Z) (r : srule) =>
    Some ((fst r, if Nat.eqb n 0 then (10 - nth 0 p 0)%Z else (20 - nth 1 p 0)%Z), coverage 2 (fst r)) in
  exists learned model, fit test learn relearn 5 2 (Some 5%Z) true None 0 [CSize 3] = Some (Some (learned, [6; 7]%Z)) /\
    fit test learn relearn 5 2 (Some 5%Z) true (Some 1) 0 [CSize 3] = Some (Some (model, [10; 20]%Z)) /\
    rlVisitUsed learned = Some [([], 5%Z); ([[true; false]], 1%Z); ([[true; true]; [false; true]], 2%Z)] /\
    replaceAll 2 1 relearn [([], 5%Z)] [([[true; false]], 1%Z); ([[true; true]; [false; true]], 2%Z)]
      = [([[true; false]], 5%Z); ([[true; true]; [false; true]], 15%Z)] /\
    rlVisitUsed model = Some [([], 5%Z); ([[true; false]], 5%Z); ([[true; true]; [false; true]], 15%Z)].
Proof.
  eexists. eexists. split; [vm_compute; reflexivity|]. split; [vm_compute; reflexivity|]. split; [vm_compute; reflexivity|].
  split; vm_compute; reflexivity.
Qed.

(** Missing: dropped rules should not have an effect. If unused rules are removed from the model, the remaining ones are learned with respect to
    the scores predicted by the other rules and the dropped ones. *)
Theorem C141_pruning_partial :
  forall (X C : Type) (test : list Z * X -> nat -> C -> option (result * C))
    (learn : list Z -> X -> option (srule * list bool) * X)
    (relearn : nat -> list Z -> srule -> option (srule * list bool))
    fuel numExamples default numIterations x c model scores,
  learns numExamples learn -> relearns numExamples relearn ->
  (forall t m c r c', test t m c = Some (r, c') -> rNumUsed r <= m) ->
  fit test learn relearn fuel numExamples default true (Some numIterations) x c = Some (Some (model, scores)) ->
  exists learned learnedScores rules dropped,
  fit test learn relearn fuel numExamples default false None x c = Some (Some (learned, learnedScores)) /\
  rlVisit learned = Some (defaultRules default ++ rules ++ dropped) /\ rlVisitUsed learned = Some (defaultRules default ++ rules) /\
  rlVisitUsed model
    = Some (defaultRules default ++ replaceAll numExamples numIterations relearn (defaultRules default ++ dropped) rules).
Proof. exact (@fit_optimized). Qed.
Print Assumptions C141_pruning_partial.

(** Post-pruning keeps two out of three rules, the first of which is the default rule. *)
Example C141_pruning_partial_example :
  let test := fun (t : list Z * unit) n (cs : list crit) => listTest critTest
    (mkEnv 0%Z (fun e => (inject_Z (nth e (fst t) 0%Z) - 2) * (inject_Z (nth e (fst t) 0%Z) - 2))%Q) n cs in
  let learn := fun (_ : list Z) (x : unit) => (Some (([[true; false]], 1%Z), [true; false]), x) in
  let relearn := fun (n : nat) (p : list Z) (r : srule) => Some ((fst r, 10 - nth 0 p 0)%Z, coverage 2 (fst r)) in
  exists learned model, fit test learn relearn 5 2 (Some 1%Z) false None tt
      [CSize 3; CPost (Bi [1] [0]) true 1 1 (postInit 1)] = Some (Some (learned, [3; 1]%Z)) /\
    fit test learn relearn 5 2 (Some 1%Z) true (Some 1) tt
      [CSize 3; CPost (Bi [1] [0]) true 1 1 (postInit 1)] = Some (Some (model, [10; 1]%Z)) /\
    rlVisit learned = Some [([], 1%Z); ([[true; false]], 1%Z); ([[true; false]], 1%Z)] /\
    rlVisitUsed learned = Some [([], 1%Z); ([[true; false]], 1%Z)] /\
    rlVisitUsed model = Some [([], 1%Z); ([[true; false]], 8%Z)].
Proof.
  eexists. eexists. split; [vm_compute; reflexivity|]. split; [vm_compute; reflexivity|]. split; [vm_compute; reflexivity|].
  split; vm_compute; reflexivity.
Qed.

(** A single example with the label 1. Before post-optimization, the model predicts 1. Each rule should be replaced with one that predicts
    the difference between the label and the scores of the other rules. Afterwards, the model predicts 0. *)
Theorem C141_dropped_refuted : let test := fun (t : list Z * unit) n => listTest critTest
    (mkEnv 0%Z (fun e => (inject_Z (nth e (fst t) 0%Z) - 1) * (inject_Z (nth e (fst t) 0%Z) - 1))%Q) n in
  let learn := fun (_ : list Z) (x : unit) => (Some (([[true]], 1%Z), [true]), x) in
  let relearn := fun (_ : nat) (scores : list Z) (_ : srule) => Some (([[true]], (1 - nth 0 scores 0)%Z), [true]) in
  learns 1 learn /\ relearns 1 relearn /\
  exists learned scores rules model scores' rules',
    fit test learn relearn 5 1 None true None tt [CSize 2; CPost (Single [0]) true 1 1 (postInit 1)]
      = Some (Some (learned, scores)) /\
    fit test learn relearn 5 1 None true (Some 1) tt [CSize 2; CPost (Single [0]) true 1 1 (postInit 1)]
      = Some (Some (model, scores')) /\
    rlVisitUsed learned = Some rules /\ rlVisitUsed model = Some rules' /\
    predicted rules 0 = 1%Z /\ predicted (replaceAll 1 1 relearn [] rules) 0 = 1%Z /\ predicted rules' 0 = 0%Z.
Proof. exact optimized_refuted. Qed.
Print Assumptions C141_dropped_refuted.
