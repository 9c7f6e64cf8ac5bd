(** Specification of the models that result from training a boosted ensemble. *)
From Coq Require Import Reals List Bool Arith.
From Verif Require Import Lib.Arr Model.Rules Model.BoostTraining Spec.Rules Spec.BoostTraining.
Import ListNotations.
Open Scope nat_scope.

(** [row i]: the feature values of the [i]-th example. A rule covers the examples that satisfy its conditions. *)
Definition covers_satisfying (n : nat) (row : nat -> list fval) (conditions : list condition) (r : BoostTraining.rule) : Prop :=
  forall i, In i (ruleCovered r) <-> i < n /\ Forall (holds (row i)) conditions.

(** The conditions can be evaluated for all examples, i.e., no values are missing. *)
Definition no_missing (n : nat) (row : nat -> list fval) (conditions : list condition) : Prop :=
  forall i, i < n -> Forall (evaluable (row i)) conditions.

(** The rules that are learned, including the default rule. *)
Definition allRules (default : option BoostTraining.rule) (rules : list (list condition * BoostTraining.rule)) : list BoostTraining.rule :=
  match default with Some r => [r] | None => [] end ++ map snd rules.

(** The rules of a model are valid. The default rule covers all examples. *)
Definition learned_from (regression : bool) (n m : nat) (row : nat -> list fval) (default : option BoostTraining.rule)
    (rules : list (list condition * BoostTraining.rule)) : Prop :=
  (forall r, default = Some r -> valid_rule regression n m r /\ forall i, In i (ruleCovered r) <-> i < n) /\
  Forall (fun cr => valid_rule regression n m (snd cr) /\ Forall well_typed (fst cr) /\ covers_satisfying n row (fst cr) (snd cr)) rules.

(** How many rules are used for prediction. Zero stands for all rules. *)
Definition numUsed (numUsedRules maxRules total : nat) : nat :=
  let n := if numUsedRules =? 0 then total else numUsedRules in
  if maxRules =? 0 then n else Nat.min n maxRules.
