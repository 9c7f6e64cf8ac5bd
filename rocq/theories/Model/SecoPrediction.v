(** Model of cpp/subprojects/seco/src/mlrl/seco/prediction/predictor_binary_output_wise.cpp. The values of heads are Booleans
    (1 = relevant, 0 = irrelevant), as are predictions. *)
From Coq Require Import NArith Arith List Bool.
From Verif Require Import Lib.Arr Model.Rules Model.Prediction Model.Labels.
From Verif Require Model.SecoStatistics.
Import ListNotations.

(** ** Dense predictions *)

(** Lines 17-23 and 34-38: the prediction for a single label. [st]: the predictions and the mask. *)
Definition predictLabel (index : nat) (value : bool) (st : list bool * list bool) : option (list bool * list bool) :=
  let* masked := aget (snd st) index in
  if masked then Some st
  else
    let* row := aset (fst st) index value in
    let* mask := aset (snd st) index true in
    Some (row, mask).

(** Lines 13-50. *)
Definition applyHeadDense (h : head bool) (st : list bool * list bool) : option (list bool * list bool) :=
  match h with
  | CompleteHead values => forN (length values) 0 (fun i st => let* v := aget values i in predictLabel i v st) st
  | PartialHead values => forN (length values) 0 (fun i st => let* (index, v) := aget values i in predictLabel index v st) st
  end.

(** ** Sparse predictions *)

(** Lines 237-252. Returns the indices that are written and the remaining elements of the buffer and of the head. Incrementing
    the head's iterator beyond its end is undefined. *)
Fixpoint mergeFirst (cnt numLabels : nat) (buffer scores : list nat) : option (list nat * (list nat * list nat)) :=
  match cnt with
  | 0 => Some ([], (buffer, scores))
  | S cnt' =>
      let index1 := hd numLabels buffer in
      let index2 := hd numLabels scores in
      let* (index, buffer, scores) :=
        if index1 <? index2 then Some (index1, tl buffer, scores)
        else if index1 =? index2 then match scores with [] => None | _ :: scores' => Some (index1, tl buffer, scores') end
        else match scores with [] => None | _ :: scores' => Some (index2, buffer, scores') end in
      let* (out, rest) := mergeFirst cnt' numLabels buffer scores in
      Some (index :: out, rest)
  end.

(** Lines 254-269. Returns the indices that are appended and the remaining elements of the head. *)
Fixpoint mergeWhile (fuel numLabels : nat) (buffer scores : list nat) : option (list nat * list nat) :=
  match buffer with
  | [] => Some ([], scores)
  | index1 :: buffer' =>
      match fuel with
      | 0 => None
      | S fuel' =>
          let index2 := hd numLabels scores in
          let* (index, buffer, scores) :=
            if index1 <? index2 then Some (index1, buffer', scores)
            else if index1 =? index2 then match scores with [] => None | _ :: scores' => Some (index1, buffer', scores') end
            else match scores with [] => None | _ :: scores' => Some (index2, buffer, scores') end in
          let* (out, rest) := mergeWhile fuel' numLabels buffer scores in
          Some (index :: out, rest)
      end
  end.

(** Lines 224-276. [scores]: the indices of the labels the head predicts as relevant. *)
Definition mergeRow (numLabels : nat) (scores row : list nat) : option (list nat) :=
  match scores with
  | [] => Some row
  | first :: _ =>
      if 0 <? length row then
        let buffer := SecoStatistics.lowerBound row first in
        let start := length row - length buffer in
        let* (written, (buffer', scores')) := mergeFirst (length buffer) numLabels buffer scores in
        let* (appended, rest) := mergeWhile (length buffer' + length scores') numLabels buffer' scores' in
        Some (firstn start row ++ written ++ appended ++ rest)
      else Some (row ++ scores)
  end.

(** Lines 279-288: [indexIterator[*scoresBegin]] for the non-zero elements of the head. *)
Definition relevantIndices (h : head bool) : option (list nat) :=
  match h with
  | CompleteHead values => Some (nz_read values)
  | PartialHead values =>
      forL (nz_read (map snd values)) (fun i acc => let* (index, _) := aget values i in Some (acc ++ [index])) []
  end.

(** See above (cpp/subprojects/seco/src/mlrl/seco/prediction/predictor_binary_output_wise.cpp, lines 279-288). *)
Definition applyHeadSparse (numLabels : nat) (h : head bool) (row : list nat) : option (list nat) :=
  let* scores := relevantIndices h in mergeRow numLabels scores row.

(** ** Loops over rules and examples *)

(** Lines 52-94 (dense predictions) and 292-331 (sparse predictions), for both types of feature matrices. [junk]: content of an
    uninitialized cell. *)
Definition forCovering {S} (junk : fval) (m : featureMatrix) (it stop : rlIter (rule bool)) (exampleIndex : nat)
    (apply : head bool -> S -> option S) (st : S) : option S :=
  match m with
  | DenseMatrix rows =>
      let* row := aget rows exampleIndex in
      iterLoop it stop (fun r st =>
        let* covered := coversDense row (fst r) in
        if covered then apply (snd r) st else Some st) st
  | CsrMatrix numCols sparseValue rows =>
      let* entries := aget rows exampleIndex in
      let* (st, _, _) := iterLoop it stop (fun r st =>
        let '(st, tmp, n) := st in
        let* (covered, tmp) := coversSparse entries sparseValue tmp n (fst r) in
        let* st := if covered : bool then apply (snd r) st else Some st in
        Some (st, tmp, ((n + 1) mod 2 ^ 32)%N)) (st, (repeat junk numCols, repeat 0%N numCols), 1%N) in
      Some st
  end.

(** Lines 156-165. The matrix is only initialized if there is no default rule; [junkLabels]: its content otherwise. *)
Definition predictDense (junk : fval) (junkLabels : list (list bool)) (m : featureMatrix) (l : ruleList (rule bool))
    (numLabels maxRules : nat) : option (list (list bool)) :=
  forN (fmRows m) 0 (fun i matrix =>
    let* row := aget matrix i in
    let* (row, _) := forCovering junk m (rlUsedBegin l maxRules) (rlUsedEnd l maxRules) i applyHeadDense
      (row, repeat false numLabels) in
    aset matrix i row)
    (match rlDefault l with Some _ => junkLabels | None => repeat (repeat false numLabels) (fmRows m) end).

(** Lines 399-406: the rows of the matrix that is passed to [createBinarySparsePredictionMatrix]. *)
Definition predictSparse (junk : fval) (m : featureMatrix) (l : ruleList (rule bool)) (numLabels maxRules : nat)
    : option (list (list nat)) :=
  forN (fmRows m) 0 (fun i matrix =>
    let* row := aget matrix i in
    let* row := forCovering junk m (rlUsedBegin l maxRules) (rlUsedEnd l maxRules) i (applyHeadSparse numLabels) row in
    aset matrix i row) (repeat [] (fmRows m)).
