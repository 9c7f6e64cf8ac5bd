(** Specification of rule pruning and rule induction. *)
From Coq Require Import ZArith Arith List Bool.
From Verif Require Import Lib.Arr Model.Refinement Model.Induction Spec.Refinement.
Import ListNotations.
Open Scope nat_scope.

(** Whether an example satisfies all conditions. *)
Definition satisfies (conditions : list cond) (e : nat) : bool := forallb (fun c => nth e c false) conditions.
(** The coverage mask of a rule with the given conditions. *)
Definition coverage (numExamples : nat) (conditions : list cond) : list bool :=
  map (satisfies conditions) (seq 0 numExamples).

(** The sum of the predictions of all rules that cover an example. *)
Definition predicted (rules : list srule) (e : nat) : Z :=
  fold_right (fun r acc => (if satisfies (fst r) e then snd r + acc else acc)%Z) 0%Z rules.

(** The current predictions are those of the model, beside a constant part such as that of the default rule. *)
Definition up_to_date (base : nat -> Z) (rules : list srule) (predictions : list Z) : Prop :=
  forall e p, nth_error predictions e = Some p -> p = (base e + predicted rules e)%Z.
