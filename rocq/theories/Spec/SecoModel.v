(** Specification of the models that result from training a separate-and-conquer algorithm. *)
From Coq Require Import NArith List Bool Arith.
From Verif Require Import Lib.Arr Model.Rules Model.SecoStatistics Model.SecoModel Spec.Rules Spec.Seco.
Import ListNotations.

(** [row i]: the feature values of the [i]-th example. A rule covers the examples that satisfy its conditions. Its head is
    valid. *)
Definition valid_seco_rule (n m : nat) (row : nat -> list fval) (r : secoRule) : Prop :=
  NoDup (srCovered r) /\ (forall i, In i (srCovered r) <-> i < n /\ Forall (holds (row i)) (srConditions r)) /\
  Forall well_typed (srConditions r) /\ valid_head m (srHead r).

(** The head of a rule predicts the opposite of the default rule, which predicts majority labels as relevant. *)
Definition predicts_minority (label : nat -> nat -> bool) (n : nat) (h : SecoStatistics.head) : Prop :=
  forall l b, predictionOf h l = Some b -> (b = false <-> is_majority label n l).

(** A rule predicts for a label of an example. *)
Definition affects (r : secoRule) (e l : nat) : bool :=
  existsb (Nat.eqb e) (srCovered r) && match predictionOf (srHead r) l with Some _ => true | None => false end.

(** The number of labels that are predicted incorrectly. *)
Definition errors (label : nat -> nat -> bool) (n m : nat) (predicted : nat -> nat -> bool) : nat :=
  count (fun x => negb (eqb (label (fst x) (snd x)) (predicted (fst x) (snd x)))) (cells n m).
