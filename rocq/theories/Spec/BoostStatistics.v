(** Specification of the statistics used by boosting algorithms. *)
From Coq Require Import Reals List Bool Arith Sorted.
From Verif Require Import Lib.Arr Model.Containers Model.Losses Model.BoostStatistics Spec.Containers.
Import ListNotations.
Open Scope R_scope.

(** ** Weighted sums over examples *)

(** Examples together with signed weights. *)
Definition contributions := list (nat * R).

(** The weighted sum of a quantity of examples. *)
Definition sumOf (c : contributions) (x : nat -> R) : R := fold_right (fun p s => snd p * x (fst p) + s) 0 c.

(** The weight of an example. *)
Definition weightOf (w : weightVector) (i : nat) : R :=
  match w with EqualWeights _ => 1 | IndividualWeights l => nth i l 0 end.

(** The weights, where those that are considered to be zero are zero. *)
Definition effective (w : weightVector) : weightVector :=
  match w with EqualWeights n => EqualWeights n | IndividualWeights l => IndividualWeights (map (fun x => if isEqualToZero x then 0 else x) l) end.
Definition single (w : weightVector) (i : nat) : nat * R := (i, weightOf w i).
Definition negated (c : contributions) : contributions := map (fun p => (fst p, - snd p)) c.

(** The examples that are taken into account by the total sums. *)
Definition trackStep (w : weightVector) (c : contributions) (op : totalOp) : contributions :=
  match op with
  | ResetCovered => []
  | AddCovered i => c ++ [single w i]
  | RemoveCovered i => c ++ negated [single w i]
  end.
Definition tracked (w : weightVector) (ops : list totalOp) : contributions :=
  fold_left (trackStep w) ops (map (single w) (seq 0 (numWeights w))).

(** The examples added to a subset since it has been reset for the last time, and those added before. *)
Definition addedStep (w : weightVector) (s : contributions * contributions) (op : subsetOp) : contributions * contributions :=
  match op with
  | AddToSubset i => (fst s ++ [single w i], snd s)
  | ResetSubset => ([], snd s ++ fst s)
  end.
Definition added (w : weightVector) (ops : list subsetOp) : contributions * contributions :=
  fold_left (addedStep w) ops ([], []).

(** What can be covered: the tracked examples, except for the excluded ones. *)
Definition coverable (w : weightVector) (ops : list totalOp) (excluded : list nat) : contributions :=
  tracked w ops ++ negated (map (single w) excluded).

(** What should be scored. *)
Definition scoredContributions (w : weightVector) (ops : list totalOp) (excluded : list nat) (sops : list subsetOp)
    (k : scoring) : contributions :=
  match k with
  | Covered => fst (added w sops)
  | CoveredAccumulated => snd (added w sops)
  | Uncovered => coverable w ops excluded ++ negated (fst (added w sops))
  | UncoveredAccumulated => coverable w ops excluded ++ negated (snd (added w sops))
  end.
Definition accumulates (k : scoring) : Prop :=
  match k with CoveredAccumulated | UncoveredAccumulated => True | _ => False end.

Definition total_op_in_range (n : nat) (op : totalOp) : Prop :=
  match op with ResetCovered => True | AddCovered i | RemoveCovered i => (i < n)%nat end.
Definition subset_op_in_range (n : nat) (op : subsetOp) : Prop :=
  match op with AddToSubset i => (i < n)%nat | ResetSubset => True end.

(** The outputs that correspond to output indices. *)
Definition outputsOf (o : outputs) : list nat := match o with AllOutputs n => seq 0 n | SomeOutputs l => l end.
Definition valid_outputs (numCols : nat) (o : outputs) : Prop :=
  match o with AllOutputs n => n = numCols | SomeOutputs l => Forall (fun i => (i < numCols)%nat) l end.

(** ** The statistics of examples *)

(** Dense decomposable statistics: the gradient and Hessian of an example and an output. *)
Definition denseGradient (rows : list (list (R * R))) (l e : nat) : R := fst (nth l (nth e rows []) (0, 0)).
Definition denseHessian (rows : list (list (R * R))) (l e : nat) : R := snd (nth l (nth e rows []) (0, 0)).

(** Rows of a sparse matrix that may result from its operations. *)
Definition valid_row {V} (n : nat) (row : sset V) : Prop :=
  exists ops, Forall (ss_op_in_range n) ops /\ ss_run (ss_empty V n) ops = Some row.

(** The value that is stored for an output, if any. *)
Definition stored {V} (row : sset V) (l : nat) : option V :=
  match find (fun entry => fst entry =? l) (ss_values row) with Some entry => Some (snd entry) | None => None end.

(** Sparse decomposable statistics: the gradient of a missing element is zero, its Hessian is one. *)
Definition sparseStatistic (row : sset (R * R)) (l : nat) : R * R :=
  match stored row l with Some x => x | None => (0, 1) end.
Definition sparseGradient (rows : list (sset (R * R))) (l e : nat) : R :=
  fst (sparseStatistic (nth e rows (ss_empty _ 0)) l).
Definition sparseHessian (rows : list (sset (R * R))) (l e : nat) : R :=
  snd (sparseStatistic (nth e rows (ss_empty _ 0)) l).

(** Non-decomposable statistics: the gradient of an output and the Hessian of two outputs. *)
Definition ndGradient (rows : list nonDecomposableVector) (l e : nat) : R := nth l (fst (nth e rows ([], []))) 0.
Definition ndHessian (rows : list nonDecomposableVector) (l m e : nat) : R :=
  nth (Nat.max l m * (Nat.max l m + 1) / 2 + Nat.min l m) (snd (nth e rows ([], []))) 0.

(** The outcome contains the exact sums for the given outputs. *)
Definition exact_dense (rows : list (list (R * R))) (o : list nat) (c : contributions) (v : list (R * R)) : Prop :=
  length v = length o /\
  forall i l, nth_error o i = Some l ->
    nth_error v i = Some (sumOf c (denseGradient rows l), sumOf c (denseHessian rows l)).
Definition exact_sparse (rows : list (sset (R * R))) (o : list nat) (c : contributions) (v : sparseVector) : Prop :=
  length (fst v) = length o /\
  forall i l, nth_error o i = Some l ->
    sparseElement v i = Some (sumOf c (sparseGradient rows l), sumOf c (sparseHessian rows l)).
Definition exact_nd (rows : list nonDecomposableVector) (o : list nat) (c : contributions) (v : nonDecomposableVector) : Prop :=
  length (fst v) = length o /\
  (forall i l, nth_error o i = Some l -> nth_error (fst v) i = Some (sumOf c (ndGradient rows l))) /\
  (forall i j l m, (j <= i)%nat -> nth_error o i = Some l -> nth_error o j = Some m ->
    nth_error (snd v) (i * (i + 1) / 2 + j) = Some (sumOf c (ndHessian rows l m))).

(** ** Predicted scores *)

(** A prediction that is valid for a number of outputs. *)
Definition valid_prediction (numCols : nat) (p : prediction) : Prop :=
  match p with
  | CompletePrediction values => length values = numCols
  | PartialPrediction indices values => length values = length indices /\ Forall (fun i => (i < numCols)%nat) indices
  end.

(** What is predicted for an output: the sum of the values that are predicted for it. *)
Definition predictedScore (p : prediction) (l : nat) : R :=
  match p with
  | CompletePrediction values => nth l values 0
  | PartialPrediction indices values =>
      fold_right Rplus 0 (map snd (filter (fun q => fst q =? l) (combine indices values)))
  end.

(** Whether a prediction concerns an output. *)
Definition predicts (p : prediction) (l : nat) : Prop :=
  match p with CompletePrediction _ => True | PartialPrediction indices _ => In l indices end.

(** The example and the prediction of a change, and its effect on a score. *)
Definition exampleOf (c : scoreChange) : nat := match c with Apply e _ | Revert e _ => e end.
Definition predictionOf (c : scoreChange) : prediction := match c with Apply _ p | Revert _ p => p end.
Definition effect (e l : nat) (c : scoreChange) : R :=
  if exampleOf c =? e then
    match c with Apply _ p => predictedScore p l | Revert _ p => - predictedScore p l end
  else 0.
Definition effects (e l : nat) (cs : list scoreChange) : R := fold_right Rplus 0 (map (effect e l) cs).
Definition valid_change (numRows numCols : nat) (c : scoreChange) : Prop :=
  (exampleOf c < numRows)%nat /\ valid_prediction numCols (predictionOf c).
