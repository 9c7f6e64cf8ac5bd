(** Specification of the statistics used by separate-and-conquer algorithms. *)
From Coq Require Import ZArith NArith Arith List Bool Sorted.
From Verif Require Import Lib.Arr Model.SecoStatistics.
Import ListNotations.
Open Scope nat_scope.

(** The label matrix [lm] stores that the label [l] is relevant to the example [e] iff [label e l] holds. *)
Definition represents (lm : labelMatrix) (label : nat -> nat -> bool) : Prop :=
  match lmValues lm with
  | DenseLabels values => length values = lmRows lm * lmCols lm /\
      forall e l, e < lmRows lm -> l < lmCols lm -> nth_error values (e * lmCols lm + l) = Some (label e l)
  | CsrLabels rows => length rows = lmRows lm /\
      forall e row, nth_error rows e = Some row -> StronglySorted lt row /\
        forall l, In l row <-> l < lmCols lm /\ label e l = true
  end.

(** Membership. *)
Definition mem (l : list nat) (i : nat) : bool := existsb (Nat.eqb i) l.

(** The number of elements with a certain property. *)
Definition count {A} (f : A -> bool) (l : list A) : nat := length (filter f l).

(** All pairs of examples and labels. *)
Definition cells (numExamples numLabels : nat) : list (nat * nat) :=
  flat_map (fun l => map (fun e => (e, l)) (seq 0 numExamples)) (seq 0 numLabels).

(** A label is relevant to more than half of the examples. *)
Definition is_majority (label : nat -> nat -> bool) (numExamples l : nat) : Prop :=
  numExamples < 2 * count (fun e => label e l) (seq 0 numExamples).

(** The default rule predicts the label [l] incorrectly for the example [e]. *)
Definition deviates (label : nat -> nat -> bool) (majority : list nat) (c : nat * nat) : bool :=
  negb (eqb (label (fst c) (snd c)) (mem majority (snd c))).

(** ** Confusion matrices *)

(** The element of a confusion matrix that corresponds to a true label and a prediction. *)
Definition element (m : confusion) (relevant predicted : bool) : Z :=
  match relevant, predicted with
  | false, false => cmIn m
  | false, true => cmIp m
  | true, false => cmRn m
  | true, true => cmRp m
  end.

(** Examples together with signed weights. *)
Definition contributions := list (nat * Z).

(** The summed weights of the contributions of uncovered labels [l] with a certain ground truth, for which a certain
    prediction is made. A rule predicts the opposite of the default rule. *)
Definition weightOf (label : nat -> nat -> bool) (uncovered : nat -> nat -> bool) (majority : nat -> bool)
    (l : nat) (relevant predicted : bool) (c : contributions) : Z :=
  fold_right (fun '(e, w) s =>
    if uncovered e l && eqb (label e l) relevant && eqb (negb (majority l)) predicted then (w + s)%Z else s) 0%Z c.

(** The label [l] has not been covered for the example [e]. *)
Definition uncovered (numLabels : nat) (counts : list N) (e l : nat) : bool := (nth (e * numLabels + l) counts 0 =? 0)%N.

(** A vector that contains the exact confusion matrices of the given labels. *)
Definition exact_vector (label uncovered : nat -> nat -> bool) (majority : nat -> bool) (labels : list nat)
    (c : contributions) (v : list confusion) : Prop :=
  length v = length labels /\
  forall i l m, nth_error labels i = Some l -> nth_error v i = Some m ->
    forall relevant predicted, element m relevant predicted = weightOf label uncovered majority l relevant predicted c.

(** The labels that correspond to output indices. *)
Definition labelsOf (o : outputs) : list nat := match o with AllOutputs n => seq 0 n | SomeOutputs l => l end.

(** Output indices that are valid for a number of labels. *)
Definition valid_outputs (numLabels : nat) (o : outputs) : Prop :=
  match o with
  | AllOutputs n => n = numLabels
  | SomeOutputs l => StronglySorted le l /\ Forall (fun i => i < numLabels) l
  end.

(** What is tracked by the weighted statistics. *)
Definition weightAt (weights : list Z) (i : nat) : Z := nth i weights 0%Z.
Definition allExamples (weights : list Z) : contributions := map (fun i => (i, weightAt weights i)) (seq 0 (length weights)).
Definition negated (c : contributions) : contributions := map (fun '(e, w) => (e, (- w)%Z)) c.
Definition trackStep (weights : list Z) (c : contributions) (op : wsOp) : contributions :=
  match op with
  | ResetCovered => []
  | AddCovered i => c ++ [(i, weightAt weights i)]
  | RemoveCovered i => c ++ [(i, (- weightAt weights i)%Z)]
  end.
Definition tracked (weights : list Z) (ops : list wsOp) : contributions :=
  fold_left (trackStep weights) ops (allExamples weights).

Definition op_in_range (n : nat) (op : wsOp) : Prop :=
  match op with ResetCovered => True | AddCovered i | RemoveCovered i => i < n end.
Definition sop_in_range (n : nat) (op : ssOp) : Prop := match op with AddToSubset i => i < n | ResetSubset => True end.

(** The contributions added to a subset since it has been reset for the last time, and those added before. *)
Definition subsetStep (weights : list Z) (s : contributions * contributions) (op : ssOp) : contributions * contributions :=
  match op with
  | AddToSubset i => (fst s ++ [(i, weightAt weights i)], snd s)
  | ResetSubset => ([], snd s ++ fst s)
  end.
Definition added (weights : list Z) (ops : list ssOp) : contributions * contributions :=
  fold_left (subsetStep weights) ops ([], []).

(** What can be covered: the tracked contributions, except for excluded examples. *)
Definition coverable (weights : list Z) (ops : list wsOp) (excluded : list nat) : contributions :=
  tracked weights ops ++ negated (map (fun i => (i, weightAt weights i)) excluded).

(** The contributions that should be scored. *)
Definition scoredContributions (weights : list Z) (ops : list wsOp) (excluded : list nat) (sops : list ssOp) (k : scoring) :
    contributions :=
  match k with
  | Covered => fst (added weights sops)
  | CoveredAccumulated => snd (added weights sops)
  | Uncovered => coverable weights ops excluded ++ negated (fst (added weights sops))
  | UncoveredAccumulated => coverable weights ops excluded ++ negated (snd (added weights sops))
  end.
Definition accumulates (k : scoring) : Prop :=
  match k with CoveredAccumulated | UncoveredAccumulated => True | _ => False end.

(** ** Coverage *)

(** A head that is valid for a number of labels. *)
Definition valid_head (numLabels : nat) (h : head) : Prop :=
  match h with
  | CompleteHead scores => length scores = numLabels
  | PartialHead indices scores =>
      length scores = length indices /\ StronglySorted lt indices /\ Forall (fun i => i < numLabels) indices
  end.

(** What a head predicts for a label, if anything. *)
Definition predictionOf (h : head) (l : nat) : option bool :=
  match h with
  | CompleteHead scores => nth_error scores l
  | PartialHead indices scores =>
      match find (fun p => fst p =? l) (combine indices scores) with Some p => Some (snd p) | None => None end
  end.

(** A rule that has been applied to an example. *)
Definition application : Type := nat * head.

(** An application covers a label of an example if it predicts differently from the default rule. *)
Definition covers (majority : list nat) (c : nat * nat) (a : application) : bool :=
  (fst a =? fst c) &&
  match predictionOf (snd a) (snd c) with Some b => negb (eqb b (mem majority (snd c))) | None => false end.
Definition covered (majority : list nat) (apps : list application) (c : nat * nat) : bool := existsb (covers majority c) apps.

Definition valid_application (numExamples numLabels : nat) (a : application) : Prop :=
  fst a < numExamples /\ valid_head numLabels (snd a).

Definition applyAll (numLabels : nat) (majority : list nat) (l : list application) (c : coverage) : option coverage :=
  forL l (fun a => applyPrediction numLabels (fst a) majority (snd a)) c.

(** A history of applying rules to examples and of reverting this. *)
Inductive change := Apply (a : application) | Revert (a : application).
Definition changeOf (x : change) : application := match x with Apply a | Revert a => a end.
Definition runChange (numLabels : nat) (majority : list nat) (x : change) (c : coverage) : option coverage :=
  match x with
  | Apply a => applyPrediction numLabels (fst a) majority (snd a) c
  | Revert a => revertPrediction numLabels (fst a) majority (snd a) c
  end.

(** The counts are 32 bit integers. *)
Definition valid_counts (counts : list N) : Prop := Forall (fun n => n < 2 ^ 32)%N counts.

(** Indices in ascending order. *)
Definition ascending (l : list nat) : Prop :=
  forall i a b, nth_error l i = Some a -> nth_error l (S i) = Some b -> a <= b.
