(** Textbook definitions of heuristics, in terms of labels of examples a rule is evaluated on. *)
From Coq Require Import QArith List Bool.
From Verif Require Import Model.SecoHeuristics.
Import ListNotations.
Open Scope Q_scope.

(** A label of an example: its weight, whether it is relevant, whether the rule predicts it as relevant and whether the
    rule covers the example. The default rule, which applies to the examples that are not covered, predicts the opposite. *)
Record sample : Type := mkSample { sWeight : Q; sRelevant : bool; sPredicted : bool; sCovered : bool }.

(** The summed weights of all labels with a certain property. *)
Definition weightOf (f : sample -> bool) (l : list sample) : Q :=
  fold_right (fun s sum => if f s then sWeight s + sum else sum) 0 l.

Definition valid (l : list sample) : Prop := Forall (fun s => 0 <= sWeight s) l.

(** The value of a heuristic. The ground truth and the rule's prediction are encoded by the elements of confusion matrices:
    "i" stands for irrelevant, "r" for relevant, "n" for a negative and "p" for a positive prediction. *)
Definition score (h : heuristic) (l : list sample) : option Q :=
  let w covered relevant predicted :=
    weightOf (fun s => eqb (sCovered s) covered && eqb (sRelevant s) relevant && eqb (sPredicted s) predicted) l in
  evaluate h (w true false false) (w true false true) (w true true false) (w true true true)
             (w false false false) (w false false true) (w false true false) (w false true true).

(** The prediction of the rule is (or would be) correct. *)
Definition correct (s : sample) : bool := eqb (sRelevant s) (sPredicted s).
(** The label is predicted correctly by the rule, respectively by the default rule if the rule does not cover the example. *)
Definition classifiedCorrectly (s : sample) : bool :=
  eqb (sRelevant s) (if sCovered s then sPredicted s else negb (sPredicted s)).
Definition everything (_ : sample) : bool := true.
Definition coveredCorrect (s : sample) : bool := sCovered s && correct s.

(** Fractions are undefined if their denominator is zero. *)
Definition fraction (a b : Q) : option Q := if Qeq_bool b 0 then None else Some (a / b).

Definition textbookPrecision (l : list sample) : option Q := fraction (weightOf coveredCorrect l) (weightOf sCovered l).
Definition textbookRecall (l : list sample) : option Q := fraction (weightOf coveredCorrect l) (weightOf correct l).
Definition prior (l : list sample) : option Q := fraction (weightOf correct l) (weightOf everything l).
Definition textbookWra (l : list sample) : option Q :=
  match fraction (weightOf sCovered l) (weightOf everything l), textbookPrecision l, prior l with
  | Some c, Some p, Some q => Some (c * (p - q))
  | _, _, _ => None
  end.

Definition textbook (h : heuristic) (l : list sample) : option Q :=
  match h with
  | Accuracy => fraction (weightOf classifiedCorrectly l) (weightOf everything l)
  | Precision => textbookPrecision l
  | Recall => textbookRecall l
  | Laplace => Some ((weightOf coveredCorrect l + 1) / (weightOf sCovered l + 2))
  | Wra => textbookWra l
  | FMeasure Infinite => textbookRecall l
  | FMeasure (Finite beta) =>
      match textbookPrecision l, textbookRecall l with
      | Some p, Some r => fraction ((1 + beta * beta) * p * r) (beta * beta * p + r)
      | _, _ => None
      end
  | MEstimate Infinite => textbookWra l
  | MEstimate (Finite m) =>
      match prior l with Some q => fraction (weightOf coveredCorrect l + m * q) (weightOf sCovered l + m) | None => None end
  end.

(** Parameters must not be negative. *)
Definition valid_parameter (p : parameter) : Prop := match p with Finite q => 0 <= q | Infinite => True end.
Definition valid_heuristic (h : heuristic) : Prop :=
  match h with FMeasure p | MEstimate p => valid_parameter p | _ => True end.

(** Heuristics that are not based on the weighted relative accuracy. *)
Definition is_fraction (h : heuristic) : Prop := match h with Wra | MEstimate Infinite => False | _ => True end.
