(** What it means that a model has been restored. *)
From Coq Require Import Arith List Bool.
From Verif Require Import Lib.Arr Model.Rules Model.Prediction.
Import ListNotations.

Definition head_size {V} (h : @head V) : nat :=
  match h with CompleteHead scores => length scores | PartialHead scores => length scores end.

(** A model as it is created by a learner: the body of the default rule is empty, the other ones are conjunctions. *)
Definition learned {V} (l : ruleList (@rule V)) : Prop :=
  (forall r, rlDefault l = Some r -> fst r = EmptyBody) /\
  (forall r, In r (rlRules l) -> exists b, fst r = ConjunctiveBody b).

(** The rules of a model, including the default rule. *)
Definition all_rules {V} (l : ruleList (@rule V)) : list (@rule V) :=
  match rlDefault l with Some r => [r] | None => [] end ++ rlRules l.

(** No difference between two models can be observed: they have the same rules in the same order, the same numbers of
    rules, and the same rules are used. *)
Definition same_model {V} (l l' : ruleList (@rule V)) : Prop :=
  rlDefault l' = rlDefault l /\ rlPrecedence l' = rlPrecedence l /\
  rlGetNumRules l' = rlGetNumRules l /\ rlGetNumUsed l' = rlGetNumUsed l /\
  rlVisit l' = rlVisit l /\ rlVisitUsed l' = rlVisitUsed l.
