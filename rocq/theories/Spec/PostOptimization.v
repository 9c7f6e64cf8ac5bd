(** Specification of the rules that should result from sequential post-optimization. *)
From Coq Require Import ZArith Arith List Bool.
From Verif Require Import Lib.Arr Model.Refinement Model.Induction Spec.Induction.
Import ListNotations.
Open Scope nat_scope.

(** The scores that several rules predict for the training examples. *)
Definition scoresOf (numExamples : nat) (rules : list srule) : list Z := map (predicted rules) (seq 0 numExamples).

(** The rule at the index [i] is replaced with one that is learned with respect to the scores predicted by all other rules,
    including [fixed] ones, such as the default rule, which are not replaced. *)
Definition replaceRule (numExamples : nat) (relearn : nat -> list Z -> srule -> option (srule * list bool)) (fixed : list srule)
    (st : list srule * nat) (i : nat) : list srule * nat :=
  let (rules, n) := st in
  match nth_error rules i with
  | Some rule =>
      match relearn n (scoresOf numExamples (fixed ++ firstn i rules ++ skipn (i + 1) rules)) rule with
      | Some (newRule, _) => (firstn i rules ++ newRule :: skipn (i + 1) rules, n + 1)
      | None => (rules, n + 1)
      end
  | None => st
  end.

(** All rules are replaced one after the other, as often as requested. *)
Definition replaceAll (numExamples numIterations : nat) (relearn : nat -> list Z -> srule -> option (srule * list bool))
    (fixed rules : list srule) : list srule :=
  fst (Nat.iter numIterations
    (fun st => fold_left (replaceRule numExamples relearn fixed) (seq 0 (length rules)) st) (rules, 0)).

(** The default rule, if there is one. *)
Definition defaultRules (default : option Z) : list srule := match default with Some score => [([], score)] | None => [] end.
