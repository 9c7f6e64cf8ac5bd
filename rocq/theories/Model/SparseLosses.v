(** Model of the functions that update sparse statistics and evaluate sparse predictions, and of partial updates if ground truth
    labels are stored in a sparse format. Paths are relative to cpp/subprojects/boosting/src/mlrl/boosting unless stated
    otherwise. Values of type [float64] are real numbers; there is no rounding and no overflow. *)
From Coq Require Import Reals List Bool Arith Sorted Permutation.
From Verif Require Import Lib.Arr Model.Containers Model.Losses Model.BoostStatistics.
Import ListNotations.
Open Scope R_scope.

(** losses/loss_decomposable_sparse_common.hpp, lines 17-42 and 76-100. [labels]: the remaining indices of relevant labels,
    [scores]: the remaining elements of a row of the score matrix, in the order they are stored. [f] is the update function or the
    evaluation function. The returned index is [None], if it is equal to [LIMIT]; indices are assumed to be smaller. *)
Definition fetchNext {V} (f : bool -> R -> V) (labels : list nat) (scores : list (nat * R))
    : option (nat * V) * (list nat * list (nat * R)) :=
  match labels, scores with
  | [], [] => (None, ([], []))
  | [], (scoreIndex, score) :: scores' => (Some (scoreIndex, f false score), ([], scores'))
  | outputIndex :: labels', [] => (Some (outputIndex, f true 0), (labels', []))
  | outputIndex :: labels', (scoreIndex, score) :: scores' =>
      if scoreIndex <? outputIndex then (Some (scoreIndex, f false score), (labels, scores'))
      else if outputIndex <? scoreIndex then (Some (outputIndex, f true 0), (labels', scores))
      else (Some (outputIndex, f true score), (labels', scores'))
  end.

(** losses/loss_decomposable_sparse_common.hpp, lines 44-57 and 102-116. *)
Fixpoint fetchNextNonZero {V} (fuel : nat) (f : bool -> R -> V) (isZero : V -> bool) (labels : list nat)
    (scores : list (nat * R)) : option (option (nat * V) * (list nat * list (nat * R))) :=
  match fuel with
  | O => None
  | S fuel =>
      let '(next, (labels, scores)) := fetchNext f labels scores in
      match next with
      | Some (_, v) =>
          if isZero v then fetchNextNonZero fuel f isZero labels scores else Some (next, (labels, scores))
      | None => Some (None, (labels, scores))
      end
  end.

(** The number of iterations that are sufficient for the loops. *)
Definition enough (labels : list nat) (scores : list (nat * R)) : nat := S (length labels + length scores).

(** losses/loss_decomposable_sparse_common.hpp, lines 68-73. *)
Fixpoint updateLoop (fuel : nat) (update : bool -> R -> R * R) (labels : list nat) (scores : list (nat * R))
    (row : sset (R * R)) : option (sset (R * R)) :=
  match fuel with
  | O => None
  | S fuel =>
      let* (next, (labels, scores)) :=
        fetchNextNonZero (enough labels scores) update (fun tuple => isEqualToZero (fst tuple)) labels scores in
      match next with
      | None => Some row
      | Some (index, tuple) =>
          let* row := ss_emplace row index tuple in
          let* row := ss_update row index (fun _ => tuple) in
          updateLoop fuel update labels scores row
      end
  end.

(** losses/loss_decomposable_sparse_common.hpp, lines 59-74, 157-170 and 201-210. [labels]: the indices of the relevant labels,
    which are provided by an iterator over the non-zero elements of a dense row or are stored in a sparse matrix. *)
Definition updateSparseComplete (update : bool -> R -> R * R) (labels : list nat) (scores : sset R) (row : sset (R * R))
    : option (sset (R * R)) :=
  let* row := ss_clear row in
  updateLoop (enough labels (ss_values scores)) update labels (ss_values scores) row.

(** losses/loss_decomposable_sparse_common.hpp, lines 128-134. *)
Fixpoint evaluateLoop (fuel : nat) (evaluate : bool -> R -> R) (labels : list nat) (scores : list (nat * R)) (i : nat)
    (mean : R) : option (nat * R) :=
  match fuel with
  | O => None
  | S fuel =>
      let* (next, (labels, scores)) := fetchNextNonZero (enough labels scores) evaluate isEqualToZero labels scores in
      match next with
      | None => Some (i, mean)
      | Some (_, score) => evaluateLoop fuel evaluate labels scores (i + 1) (mean + (score - mean) / INR (i + 1))
      end
  end.

(** losses/loss_decomposable_sparse_common.hpp, lines 118-135 and 245-265. *)
Definition evaluateSparse (evaluate : bool -> R -> R) (labels : list nat) (scores : sset R) (numLabels : nat) : option R :=
  let* (i, mean) := evaluateLoop (enough labels (ss_values scores)) evaluate labels (ss_values scores) 0 0 in
  Some (mean * (INR i / INR numLabels)).

(** losses/loss_decomposable_sparse_common.hpp, lines 192-197 and 233-238. *)
Definition storeStatistic (row : sset (R * R)) (index : nat) (tuple : R * R) : option (sset (R * R)) :=
  if negb (isEqualToZero (fst tuple)) then
    let* row := ss_emplace row index tuple in
    ss_update row index (fun _ => tuple)
  else ss_erase row index.

(** losses/loss_decomposable_sparse_common.hpp, lines 172-199: the labels are stored in a dense format. *)
Definition updateSparsePartial (update : bool -> R -> R * R) (labels : list bool) (scores : sset R) (indices : list nat)
    (row : sset (R * R)) : option (sset (R * R)) :=
  forN (length indices) 0 (fun i row =>
    let* index := aget indices i in
    let* score := sparseScore scores index in
    let* trueLabel := aget labels index in
    storeStatistic row index (update trueLabel score)) row.

(** [std::lower_bound] on a sorted range. *)
Fixpoint lowerBound (l : list nat) (x : nat) : list nat :=
  match l with [] => [] | h :: t => if h <? x then lowerBound t x else l end.

(** losses/loss_decomposable_sparse_common.hpp, lines 226-227, and losses/loss_decomposable_common.hpp, lines 147-148. [labels]:
    the elements between [labelIndicesBegin] and [labelIndicesEnd]. *)
Definition nextLabel (labels : list nat) (index : nat) : bool * list nat :=
  let labels := lowerBound labels index in
  (match labels with [] => false | h :: _ => h =? index end, labels).

(** losses/loss_decomposable_sparse_common.hpp, lines 212-240: the labels are stored in a sparse format. *)
Definition updateSparsePartialCsr (update : bool -> R -> R * R) (labels : list nat) (scores : sset R) (indices : list nat)
    (row : sset (R * R)) : option (sset (R * R)) :=
  let* (_, row) := forN (length indices) 0 (fun i '(labels, row) =>
    let* index := aget indices i in
    let (trueLabel, labels) := nextLabel labels index in
    let* score := sparseScore scores index in
    let* row := storeStatistic row index (update trueLabel score) in
    Some (labels, row)) (labels, row) in
  Some row.

(** losses/loss_decomposable_common.hpp, lines 133-153: the statistics are stored in a dense format. *)
Definition updateDensePartialCsr (update : bool -> R -> R * R) (labels : list nat) (scores : list R) (indices : list nat)
    (row : list (R * R)) : option (list (R * R)) :=
  let* (_, row) := forN (length indices) 0 (fun i '(labels, row) =>
    let* index := aget indices i in
    let (trueLabel, labels) := nextLabel labels index in
    let* score := aget scores index in
    let* row := aset row index (update trueLabel score) in
    Some (labels, row)) (labels, row) in
  Some row.

(** ** Heads *)

(** cpp/subprojects/common/src/mlrl/common/rule_refinement/score_processor.cpp, lines 21-42, and
    prediction_partial.cpp, lines 9-11: the indices and values of a score vector are copied to a [PartialPrediction], together
    with the flag [sorted]. *)
Record partialHead := mkHead { headIndices : list nat; headValues : list R; headSorted : bool }.
(** See above (cpp/subprojects/common/src/mlrl/common/rule_refinement/score_processor.cpp, lines 21-42; prediction_partial.cpp,
    lines 9-11). *)
Definition processPartialScores (indices : list nat) (values : list R) (sorted : bool) : partialHead :=
  mkHead indices values sorted.

(** cpp/subprojects/common/src/mlrl/common/rule_refinement/prediction_partial.cpp, lines 58-85. [std::sort] may return any
    permutation of the pairs that is sorted by their indices. *)
Definition sortHead (h h' : partialHead) : Prop :=
  if headSorted h then h' = h
  else
    headSorted h' = true /\
    if 1 <? length (headIndices h) then
      exists pairs, Permutation (combine (headIndices h) (headValues h)) pairs /\ StronglySorted le (map fst pairs) /\
        headIndices h' = map fst pairs /\ headValues h' = map snd pairs
    else headIndices h' = headIndices h /\ headValues h' = headValues h.

(** The flag that is passed to the constructor of the score vector:
    rule_evaluation/rule_evaluation_decomposable_complete_common.hpp, line 41. The indices are those that are given to the rule
    evaluation. *)
Definition completeRuleEvaluationHead (indices : list nat) (values : list R) : partialHead :=
  processPartialScores indices values true.
