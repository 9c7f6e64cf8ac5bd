(** What predictions that are based on known label vectors should be. *)
From Coq Require Import QArith List Bool Arith.
From Verif Require Import Spec.Stopping.
Import ListNotations.
Open Scope Q_scope.

(** Whether a label is relevant according to a label vector that is given by the indices of its relevant labels. *)
Definition relevant (labelVector : list nat) (label : nat) : bool := existsb (Nat.eqb label) labelVector.

(** All label vectors for a number of labels. *)
Fixpoint allLabelVectors (n : nat) : list (list nat) :=
  match n with
  | O => [[]]
  | S n => allLabelVectors n ++ map (fun labelVector => labelVector ++ [n]) (allLabelVectors n)
  end.

(** The product of the values of a function for 0, ..., n - 1. *)
Fixpoint productQ (n : nat) (f : nat -> Q) : Q :=
  match n with O => 1 | S n => productQ n f * f n end.

(** The expected value of a function of label vectors, given the probabilities of label vectors. *)
Definition expectation (labelVectors : list (list nat)) (probabilities : list Q) (f : list nat -> Q) : Q :=
  Qsum (map (fun '(labelVector, probability) => probability * f labelVector) (combine labelVectors probabilities)).

(** The F1-measure of predicted labels: [prediction] specifies for each label whether it is predicted as relevant. *)
Definition f1 (prediction : list bool) (labelVector : list nat) : Q :=
  let numPredicted := length (filter (fun b => b) prediction) in
  let numTruePositives := length (filter (fun label => nth label prediction false) labelVector) in
  if (numPredicted + length labelVector =? 0)%nat then 1
  else 2 * inject_Z (Z.of_nat numTruePositives) / inject_Z (Z.of_nat (numPredicted + length labelVector)).
