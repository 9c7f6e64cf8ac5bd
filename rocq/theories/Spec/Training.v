(** Specifications for the steps of training a classification model. *)
From Coq Require Import ZArith Arith List Bool.
From Verif Require Import Lib.Arr Model.Refinement Model.Induction Model.Stopping Model.BoostConfig Model.Training
  Spec.Induction.
Import ListNotations.
Open Scope nat_scope.

(** Learning applies the predictions of each new rule to the examples that satisfy its conditions. *)
Definition learns {X} (numExamples : nat) (learn : list Z -> X -> option (srule * list bool) * X) : Prop :=
  forall predictions x rule mask x', learn predictions x = (Some (rule, mask), x') ->
    mask = coverage numExamples (fst rule) /\ forall c, In c (fst rule) -> length c = numExamples.

(** Each rule can be relearned, its predictions are applied to the examples that satisfy its conditions. *)
Definition relearns (numExamples : nat) (relearn : nat -> list Z -> srule -> option (srule * list bool)) : Prop :=
  forall n predictions rule, exists rule', relearn n predictions rule = Some (rule', coverage numExamples (fst rule')) /\
    forall c, In c (fst rule') -> length c = numExamples.

(** Each example belongs to the training or the holdout set, but not to both. *)
Definition disjoint_split (numExamples : nat) (first second : list nat) : Prop :=
  NoDup (first ++ second) /\ forall e, In e (first ++ second) <-> e < numExamples.

(** A component measures something on the holdout set: global pruning, or a calibrator that is actually created. *)
Definition holdout_set_used (c : learnerConfig) : Prop :=
  lcPruning c = PostPruning true \/ lcPruning c = PrePruning true \/
  createCalibratorFactory (lcLoss c) (lcMarginal c) = Isotonic true \/
  createCalibratorFactory (lcLoss c) (lcJoint c) = Isotonic true.

(** Whether a predictor for binary labels requires probability estimates. *)
Definition requires_probabilities (p : binaryPredictor) : bool :=
  match p with
  | BinaryOutputWise true | BinaryExampleWise true | BinaryGfm => true
  | _ => false
  end.
