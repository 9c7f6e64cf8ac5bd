(** Model of the extraction of the data that is used for fitting calibration models.
    cpp/subprojects/boosting/src/mlrl/boosting/prediction/probability_calibration_isotonic.cpp *)
From Coq Require Import ZArith QArith Arith List Bool.
From Verif Require Import Lib.Arr Model.Stopping Model.Labels Model.Isotonic Model.Serialization.
Import ListNotations.
Open Scope nat_scope.

(** * Scores are stored in dense matrices *)

(** [V]: the type of scores, [P]: the type of probabilities, [zero] and [one]: the probabilities 0 and 1. Label matrices
    and score matrices are lists of rows, [indices]: the indices of the examples to be used for calibration. *)
Section Dense.
Context {V P : Type} (zero one : P).

(** Lines 24, 45, 72 and 128: [labelIterator[j] ? 1 : 0]. *)
Definition trueProbabilityOf (label : bool) : P := if label then one else zero.

(** Lines 13-31. [f]: [transformScoreIntoMarginalProbability]. *)
Definition extractMarginalDense (f : nat -> V -> P) (indices : list nat) (numLabels : nat) (labels : list (list bool))
    (scores : list (list V)) (m : list (list (P * P))) : option (list (list (P * P))) :=
  forN (length indices) 0 (fun i m =>
    let* exampleIndex := aget indices i in
    let* labelRow := aget labels exampleIndex in
    let* scoreRow := aget scores exampleIndex in
    forN numLabels 0 (fun j m =>
      let* label := aget labelRow j in
      let* score := aget scoreRow j in
      calAddBin m j (f j score) (trueProbabilityOf label)) m) m.

(** Lines 33-53. [csrIndices], [indptr]: the label matrix in the CSR format. *)
Definition extractMarginalCsr (f : nat -> V -> P) (indices : list nat) (numLabels : nat) (csrIndices indptr : list nat)
    (scores : list (list V)) (m : list (list (P * P))) : option (list (list (P * P))) :=
  forN (length indices) 0 (fun i m =>
    let* exampleIndex := aget indices i in
    let* labelIndices := csrRow csrIndices indptr exampleIndex in
    let* scoreRow := aget scores exampleIndex in
    let* (m, _) := forN numLabels 0 (fun j '(m, labelIterator) =>
      let* score := aget scoreRow j in
      let* m := calAddBin m j (f j score) (trueProbabilityOf (bi_deref labelIterator)) in
      Some (m, bi_incr labelIterator)) (m, bi_create labelIndices 0) in
    Some m) m.

(** Lines 352-380 (dense scores) and 410-438 (sparse scores), which only differ in the type [V] of the rows of the score
    matrix. [g]: [transformScoresIntoJointProbability]. *)
Definition extractJointDense (g : nat -> list nat -> V -> P) (indices : list nat) (labels : list (list bool))
    (scores : list V) (labelVectors : list (list nat)) (m : list (list (P * P))) : option (list (list (P * P))) :=
  forN (length labelVectors) 0 (fun i m =>
    let* labelVector := aget labelVectors i in
    forN (length indices) 0 (fun j m =>
      let* exampleIndex := aget indices j in
      let* labelRow := aget labels exampleIndex in
      let* trueProbability := areLabelVectorsEqual (nz_read labelRow) labelVector in
      let* scoreRow := aget scores exampleIndex in
      calAddBin m i (g i labelVector scoreRow) (trueProbabilityOf trueProbability)) m) m.

(** Lines 382-408 (dense scores) and 440-466 (sparse scores). *)
Definition extractJointCsr (g : nat -> list nat -> V -> P) (indices : list nat) (csrIndices indptr : list nat)
    (scores : list V) (labelVectors : list (list nat)) (m : list (list (P * P))) : option (list (list (P * P))) :=
  forN (length labelVectors) 0 (fun i m =>
    let* labelVector := aget labelVectors i in
    forN (length indices) 0 (fun j m =>
      let* exampleIndex := aget indices j in
      let* labelIndices := csrRow csrIndices indptr exampleIndex in
      let* trueProbability := areLabelVectorsEqual labelIndices labelVector in
      let* scoreRow := aget scores exampleIndex in
      calAddBin m i (g i labelVector scoreRow) (trueProbabilityOf trueProbability)) m) m.
End Dense.

(** * Scores are stored in sparse matrices *)

(** A probability or not a number. *)
Notation number := (option Q).

Section Sparse.
Context {V : Type}.

(** cpp/subprojects/common/include/mlrl/common/data/view_matrix_sparse_set.hpp, lines 89-92 and the subscript operator of
    [SparseSetVector] for constant rows: the entry with a certain index, if any. The array that stores the positions of
    entries is omitted. *)
Definition sparseEntry (row : list (nat * V)) (index : nat) : option V :=
  option_map snd (find (fun e => fst e =? index) row).

(** [firstBin.second = ...] in lines 86, 88 and 140. *)
Definition setFirstProbability (m : list (list (number * number))) (i : nat) (p : number)
  : option (list (list (number * number))) :=
  let* bins := aget m i in
  let* firstBin := aget bins 0 in
  let* bins := aset bins 0 (fst firstBin, p) in
  aset m i bins.

(** Lines 60-62 and 102-104. *)
Definition addSparseBins (numLabels : nat) (m : list (list (number * number))) : option (list (list (number * number))) :=
  forN numLabels 0 (fun i m => calAddBin m i (Some 0%Q) (Some 0%Q)) m.

(** Line 86. *)
Definition meanOf (n : nat) (x mean : number) : number :=
  match x, mean with
  | Some x, Some mean => Some (iterativeArithmeticMean n x mean)
  | _, _ => None
  end.

(** Lines 55-95. The state consists of the bins and [numSparsePerLabel]. *)
Definition extractSparseDense (f : nat -> V -> number) (indices : list nat) (numLabels : nat) (labels : list (list bool))
    (scores : list (list (nat * V))) (m : list (list (number * number))) : option (list (list (number * number))) :=
  let* m := addSparseBins numLabels m in
  let* (m, _) := forN (length indices) 0 (fun i '(m, numSparsePerLabel) =>
    let* exampleIndex := aget indices i in
    let* labelRow := aget labels exampleIndex in
    let* scoreRow := aget scores exampleIndex in
    forN numLabels 0 (fun j '(m, numSparsePerLabel) =>
      let* label := aget labelRow j in
      let trueProbability := trueProbabilityOf (Some 0%Q) (Some 1%Q) label in
      match sparseEntry scoreRow j with
      | Some score =>
          let* m := calAddBin m j (f j score) trueProbability in
          Some (m, numSparsePerLabel)
      | None =>
          let* bins := aget m j in
          let* firstBin := aget bins 0 in
          let* n := aget numSparsePerLabel j in
          let numSparse := n + 1 in
          let* m := setFirstProbability m j
            (if 1 <? numSparse then meanOf numSparse trueProbability (snd firstBin) else trueProbability) in
          let* numSparsePerLabel := aset numSparsePerLabel j numSparse in
          Some (m, numSparsePerLabel)
      end) (m, numSparsePerLabel)) (m, repeat 0 numLabels) in
  Some m.

(** Line 140: the quotient of two integers, which is not a number if both are zero. A positive number is never divided by
    zero. *)
Definition quotientOf (a b : nat) : number :=
  match b with
  | 0 => None
  | _ => Some (inject_Z (Z.of_nat a) / inject_Z (Z.of_nat b))%Q
  end.

(** Lines 97-142. The state consists of the bins, [numSparsePerLabel] and [numSparseRelevantPerLabel]. [std::binary_search]
    is modelled by a membership test, as the indices of relevant labels are sorted. Decrementing does not wrap around, as
    each entry of a row has a different index. *)
Definition extractSparseCsr (f : nat -> V -> number) (indices : list nat) (numLabels : nat) (csrIndices indptr : list nat)
    (scores : list (list (nat * V))) (m : list (list (number * number))) : option (list (list (number * number))) :=
  let* m := addSparseBins numLabels m in
  let* (m, numSparsePerLabel, numSparseRelevantPerLabel) :=
    forN (length indices) 0 (fun i '(m, numSparsePerLabel, numSparseRelevantPerLabel) =>
      let* exampleIndex := aget indices i in
      let* labelIndices := csrRow csrIndices indptr exampleIndex in
      let* scoreRow := aget scores exampleIndex in
      let* numSparseRelevantPerLabel := forN (length labelIndices) 0 (fun j numSparseRelevantPerLabel =>
        let* labelIndex := aget labelIndices j in
        let* n := aget numSparseRelevantPerLabel labelIndex in
        aset numSparseRelevantPerLabel labelIndex (n + 1)) numSparseRelevantPerLabel in
      forL scoreRow (fun '(labelIndex, score) '(m, numSparsePerLabel, numSparseRelevantPerLabel) =>
        let trueLabel := existsb (Nat.eqb labelIndex) labelIndices in
        let* m := calAddBin m labelIndex (f labelIndex score) (trueProbabilityOf (Some 0%Q) (Some 1%Q) trueLabel) in
        let* n := aget numSparsePerLabel labelIndex in
        let* numSparsePerLabel := aset numSparsePerLabel labelIndex (n - 1) in
        if trueLabel then
          let* n := aget numSparseRelevantPerLabel labelIndex in
          let* numSparseRelevantPerLabel := aset numSparseRelevantPerLabel labelIndex (n - 1) in
          Some (m, numSparsePerLabel, numSparseRelevantPerLabel)
        else Some (m, numSparsePerLabel, numSparseRelevantPerLabel)) (m, numSparsePerLabel, numSparseRelevantPerLabel))
      (m, repeat (length indices) numLabels, repeat 0 numLabels) in
  forN numLabels 0 (fun i m =>
    let* a := aget numSparseRelevantPerLabel i in
    let* b := aget numSparsePerLabel i in
    setFirstProbability m i (quotientOf a b)) m.
End Sparse.

(** * Fitting *)

(** cpp/subprojects/common/src/mlrl/common/prediction/probability_calibration_isotonic.cpp, lines 138-146. [sort]:
    [std::sort] in lines 8-10. *)
Definition fitLists (sort : list bin -> list bin) (m : list (list bin)) : option (list (list bin)) :=
  forN (length m) 0 (fun i m =>
    let* bins := aget m i in
    let* bins := fitSorted (sort bins) in
    aset m i bins) m.

(** Lines 182-191 and 506-515: the examples to be used for calibration, if they have been split into two sets. *)
Definition calibrationExamples (useHoldoutSet : bool) (first second : list nat) : list nat :=
  if useHoldoutSet then second else first.

(** Lines 144-168 for dense labels and dense scores. *)
Definition fitMarginal {V} (sort : list bin -> list bin) (f : nat -> V -> Q) (indices : list nat) (numLabels : nat)
    (labels : list (list bool)) (scores : list (list V)) : option (list (list bin)) :=
  let* m := extractMarginalDense 0%Q 1%Q f indices numLabels labels scores (calCreate numLabels) in
  fitLists sort m.

(** Lines 468-492 for dense labels and dense scores. *)
Definition fitJoint {V} (sort : list bin -> list bin) (g : nat -> list nat -> V -> Q) (indices : list nat)
    (labels : list (list bool)) (scores : list V) (labelVectors : list (list nat)) : option (list (list bin)) :=
  let* m := extractJointDense 0%Q 1%Q g indices labels scores labelVectors (calCreate (length labelVectors)) in
  fitLists sort m.
