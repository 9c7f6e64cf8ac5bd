(** Properties of the serialization of models. *)
From Coq Require Import ZArith NArith Arith List Bool.
From Verif Require Import Lib.Arr Model.Rules Model.Prediction Model.Serialization.
From Verif Require Import Spec.Rules Spec.Serialization Proofs.Serialization.
Import ListNotations.

(** ** C123: A model that has been pickled can be restored *)

(** A model with arbitrary rules, each of which predicts for at least one output, is restored, whatever the content of
    uninitialised memory. Pickling the restored model results in the same state. *)
Theorem C123_restored : forall (V : Type) (l : ruleList (@rule V)) (junkF : nat * fval) (junkI : nat * Z) (junkV : V),
    learned l -> (forall r, In r (all_rules l) -> 0 < head_size (snd r)) ->
    exists state l',
      reduceRuleList l = Returned state /\ setstateRuleList junkF junkI junkV state = Returned l' /\
      same_model l l' /\ reduceRuleList l' = Returned state.
Proof. exact C123_restored_lemma. Qed.
Print Assumptions C123_restored.

(* A default rule, rules without conditions and with conditions, heads of both types, two out of three rules are used *)
Example C123_restored_example :
  let b := mkBody [(3, Fin 5)] [] [(1, 2%Z); (0, 4%Z)] [] [] [(2, 9%Z)] in
  let l := mkRuleList (Some (EmptyBody, CompleteHead [1; 2]))
             [(ConjunctiveBody b, PartialHead [(1, 8)]);
              (ConjunctiveBody (mkBody [] [] [] [] [] []), CompleteHead [3; 4])] 2 false in
  learned l /\ (forall r, In r (all_rules l) -> 0 < head_size (snd r)) /\
  rlVisitUsed l = Some [(ConjunctiveBody b, PartialHead [(1, 8)]); (EmptyBody, CompleteHead [1; 2])].
Proof.
  intros b l. split; [split|split].
  - intros r [= <-]. reflexivity.
  - intros r [<- |[<- |[]]]; eexists; reflexivity.
  - intros r [<- |[<- |[<- |[]]]]; repeat constructor.
  - reflexivity.
Qed.

(** Whenever a model can be pickled and restored, predictions are the same. *)
Theorem C123_predictions : forall (V : Type) (add : V -> V -> V) (zero : V) (l l' : ruleList (@rule V)) (state : @modelState V)
         (junkF : nat * fval) (junkI : nat * Z) (junkV : V),
    learned l -> reduceRuleList l = Returned state -> setstateRuleList junkF junkI junkV state = Returned l' ->
    forall (junk : fval) (m : featureMatrix) (numOutputs maxRules : nat),
      predictScores add zero junk m l' numOutputs maxRules = predictScores add zero junk m l numOutputs maxRules.
Proof. exact C123_predictions_lemma. Qed.
Print Assumptions C123_predictions.

(* One example is covered by the second rule, the other one is not. *)
Example C123_predictions_example :
  let b := mkBody [(0, Fin 5)] [] [] [] [] [] in
  let l := mkRuleList (Some (EmptyBody, CompleteHead [1; 2])) [(ConjunctiveBody b, PartialHead [(1, 8)])] 0 true in
  let m := DenseMatrix [[Fin 4]; [Fin 6]] in
  learned l /\
  (exists state l', reduceRuleList l = Returned state /\
     setstateRuleList (0, NaN) (0, 0%Z) 0 state = Returned l' /\
     predictScores Nat.add 0 NaN m l' 2 0 = Some [[1; 10]; [1; 2]]).
Proof.
  intros b l m. split; [split|].
  - intros r [= <-]. reflexivity.
  - intros r [<- |[]]. eexists. reflexivity.
  - eexists. eexists. split; [reflexivity|]. split; reflexivity.
Qed.

(** Pickling a model fails if and only if a rule does not predict for any output. *)
Theorem C123_errors : forall (V : Type) (l : ruleList (@rule V)),
    reduceRuleList l = Raised <-> exists r, In r (all_rules l) /\ head_size (snd r) = 0.
Proof. exact C123_errors_lemma. Qed.
Print Assumptions C123_errors.

(* A rule that does not predict for any output *)
Example C123_errors_example :
  let l := mkRuleList None [(ConjunctiveBody (mkBody [] [] [] [] [] []), PartialHead (@nil (nat * nat)))] 0 false in
  exists r, In r (all_rules l) /\ head_size (snd r) = 0.
Proof. intros l. eexists. split; [left; reflexivity|reflexivity]. Qed.

(** States that have been written by a different version are rejected. *)
Theorem C123_versions : forall (V P : Type) junkF junkI (junkV : V) junk version rules vectors (lists : list (list (P * P))),
    (version <> 4 -> setstateRuleList junkF junkI junkV (version, rules) = Raised) /\
    (version <> 3 -> setstateLabelVectorSet junk (version, vectors) = Raised) /\
    (version <> 0 -> setstateCalibration (version, lists) = Raised).
Proof. exact C123_versions_lemma. Qed.
Print Assumptions C123_versions.

Example C123_versions_example : 3 <> 4 /\ 4 <> 3 /\ 1 <> 0.
Proof. repeat split; discriminate. Qed.

(** The label vectors and their frequencies are restored, including label vectors without any labels. *)
Theorem C123_label_vectors : forall (vectors : list (list nat)) (frequencies : list nat) (junk : nat),
    length vectors = length frequencies ->
    exists state, reduceLabelVectorSet (vectors, frequencies) = Returned state /\
      setstateLabelVectorSet junk state = Returned (vectors, frequencies).
Proof. exact C123_label_vectors_lemma. Qed.
Print Assumptions C123_label_vectors.

Example C123_label_vectors_example :
  length [[0; 2]; []; [1]] = length [3; 1; 2] /\
  reduceLabelVectorSet ([[0; 2]; []; [1]], [3; 1; 2]) = Returned (3, [([0; 2], 3); ([], 1); ([1], 2)]).
Proof. split; reflexivity. Qed.

(** The bins of each output or label vector are restored, including empty lists of bins. *)
Theorem C123_calibration : forall (P : Type) (model : list (list (P * P))),
    exists state, reduceCalibration model = Returned state /\ setstateCalibration state = Returned model.
Proof. exact C123_calibration_lemma. Qed.
Print Assumptions C123_calibration.

Example C123_calibration_example :
  reduceCalibration [[(1, 2); (3, 4)]; []; [(5, 6)]] = Returned (0, [[(1, 2); (3, 4)]; []; [(5, 6)]]) /\
  setstateCalibration (0, [[(1, 2); (3, 4)]; []; [(5, 6)]]) = Returned [[(1, 2); (3, 4)]; []; [(5, 6)]].
Proof. split; reflexivity. Qed.

(** ** C124: The number of used rules may be set to any value
    Missing: numbers that are greater than the number of rules. *)

(** If the number of used rules, limited by the maximum number of rules, does not exceed the number of rules in a model,
    exactly these rules are used. *)
Theorem C124_enough_partial : forall (R S : Type) (f : R -> S -> option S) (l : ruleList R) (n maxRules : nat) (st : S),
    let chosen := if n =? 0 then rlGetNumRules l else n in
    let limited := if maxRules =? 0 then chosen else Nat.min chosen maxRules in
    limited <= rlGetNumRules l ->
    iterLoop (rlUsedBegin (rlSetNumUsed l n) maxRules) (rlUsedEnd (rlSetNumUsed l n) maxRules) f st
    = forL (expected_order (rlDefault l) (rlRules l) (rlPrecedence l) limited) f st.
Proof. exact C124_enough_lemma. Qed.
Print Assumptions C124_enough_partial.

(* The number of used rules is too large, but the maximum is not. *)
Example C124_enough_partial_example :
  let l := mkRuleList (Some 9) [7; 8] 0 true in
  rlGetNumRules l = 3 /\ (if 2 =? 0 then 5 else Nat.min 5 2) <= rlGetNumRules l /\
  expected_order (rlDefault l) (rlRules l) (rlPrecedence l) 2 = [9; 7].
Proof. repeat split. repeat constructor. Qed.

(** A number of used rules that exceeds the number of rules always results in undefined behaviour when rules are used. *)
Theorem C124_too_many_partial : forall (R S : Type) (f : R -> S -> option S) (l : ruleList R) (n : nat) (st : S),
    rlGetNumRules l < n ->
    iterLoop (rlUsedBegin (rlSetNumUsed l n) 0) (rlUsedEnd (rlSetNumUsed l n) 0) f st = None.
Proof. exact C124_too_many_lemma. Qed.
Print Assumptions C124_too_many_partial.

Example C124_too_many_partial_example : rlGetNumRules (mkRuleList (Some 9) [7; 8] 0 false) < 4.
Proof. repeat constructor. Qed.

(** A model that consists of one rule, two of which are used. *)
Theorem C124_refuted : exists (l : ruleList nat) (n : nat), rlGetNumRules l = 1 /\ rlVisitUsed l = Some [7] /\
    rlVisitUsed (rlSetNumUsed l n) = None.
Proof. exact C124_refuted_lemma. Qed.
Print Assumptions C124_refuted.
