(** Specification of the loss on the training data. *)
From Coq Require Import Reals List Bool Arith.
From Verif Require Import Lib.Arr Model.Losses Model.BoostStatistics Model.BoostTraining Spec.BoostStatistics.
Import ListNotations.
Open Scope R_scope.

(** The sum of values. *)
Definition total (l : list R) : R := fold_right Rplus 0 l.

(** The loss of an example: the mean over all outputs. *)
Definition exampleLoss {T} (evaluate : T -> R -> R) (truth : list T) (scores : list R) : R :=
  total (map (fun q => evaluate (fst q) (snd q)) (combine truth scores)) / INR (length truth).

(** The loss on the training data: the sum over all examples, according to their weights. *)
Definition trainingLoss {T} (evaluate : T -> R -> R) (weights : list R) (truth : list (list T)) (scores : list (list R)) : R :=
  total (map (fun q => fst q * exampleLoss evaluate (fst (snd q)) (snd (snd q))) (combine weights (combine truth scores))).

(** A matrix with a given number of rows and columns. *)
Definition isMatrix {A} (n m : nat) (rows : list (list A)) : Prop := length rows = n /\ Forall (fun row => length row = m) rows.

(** The examples and outputs of a rule exist and are distinct. Rules for the regression of scores predict for all outputs, see
    [C132_regression_refuted]. *)
Definition valid_rule (regression : bool) (n m : nat) (r : rule) : Prop :=
  NoDup (ruleCovered r) /\ Forall (fun i => (i < n)%nat) (ruleCovered r) /\ Forall (fun i => (i < n)%nat) (ruleExamples r) /\
  valid_outputs m (ruleOutputs r) /\ NoDup (outputsOf (ruleOutputs r)) /\
  (regression = true -> exists k, ruleOutputs r = AllOutputs k) /\ numWeights (ruleWeights r) = n.

(** The predictions of a rule are calculated from the examples it covers, according to the given weights. Examples that are not used,
    e.g., since they belong to a holdout set, have zero weights. *)
Definition calculated_from (weights : list R) (r : rule) : Prop :=
  NoDup (ruleExamples r) /\ incl (ruleExamples r) (ruleCovered r) /\
  forall i, In i (ruleCovered r) ->
    nth i weights 0 = if in_dec Nat.eq_dec i (ruleExamples r) then weightOf (ruleWeights r) i else 0.

(** The sum of the weights of the examples that are covered by a rule. *)
Definition coveredWeight (weights : list R) (r : rule) : R := total (map (fun i => nth i weights 0) (ruleCovered r)).
