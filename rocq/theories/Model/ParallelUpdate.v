(** Model of updating statistics in parallel, according to the predictions of a rule. Paths are relative to cpp/subprojects. The
    iterations of a loop are assigned to threads (the directives [#pragma omp parallel for] with [schedule(dynamic)]) and the
    memory accesses of different threads are interleaved arbitrarily. According to the C++ standard, concurrent accesses to the
    same object, one of which modifies it, are undefined behaviour. Here, it is assumed that individual accesses are atomic and
    that they become visible to other threads immediately, i.e., even more can go wrong. *)
From Coq Require Import ZArith NArith Arith List Bool.
From Verif Require Import Lib.Arr Model.SecoStatistics.
Import ListNotations.
Open Scope nat_scope.

(** ** Separate-and-conquer algorithms
    (seco/src/mlrl/seco/data/matrix_coverage_dense.cpp, lines 16-132) *)

(** The accesses to memory that is shared between threads. *)
Inductive access :=
| ReadCoverage (thread p : nat)
| LoadSum (thread : nat)
| StoreSum (thread : nat)
| WriteCoverage (thread p : nat).

(** The coverage matrix, its member [sumOfUncoveredWeights_] and the local variables of each thread, which are [coverage] and the
    temporary value of the expression [sumOfUncoveredWeights_ -= 1] (or [+= 1]). *)
Record memory : Type := mkMemory { mCounts : list N; mSum : Z; mLocals : list (N * Z) }.

(** Lines 31-37, 62-68, 90-96 and 121-127. [increase]: whether [increaseCoverage] or [decreaseCoverage] is called. *)
Definition accessMemory (increase : bool) (a : access) (m : memory) : option memory :=
  match a with
  | ReadCoverage thread p =>
      let* n := aget (mCounts m) p in
      let* (_, tmp) := aget (mLocals m) thread in
      let* locals := aset (mLocals m) thread (if increase then n else ((n + 2 ^ 32 - 1) mod 2 ^ 32)%N, tmp) in
      Some (mkMemory (mCounts m) (mSum m) locals)
  | LoadSum thread =>
      let* (coverage, tmp) := aget (mLocals m) thread in
      let* locals := aset (mLocals m) thread (coverage, if (coverage =? 0)%N then mSum m else tmp) in
      Some (mkMemory (mCounts m) (mSum m) locals)
  | StoreSum thread =>
      let* (coverage, tmp) := aget (mLocals m) thread in
      let sum := if (coverage =? 0)%N then (if increase then (tmp - 1)%Z else (tmp + 1)%Z) else mSum m in
      Some (mkMemory (mCounts m) sum (mLocals m))
  | WriteCoverage thread p =>
      let* (coverage, tmp) := aget (mLocals m) thread in
      let* counts := aset (mCounts m) p (if increase then ((coverage + 1) mod 2 ^ 32)%N else coverage) in
      Some (mkMemory counts (mSum m) (mLocals m))
  end.

(** The positions that are updated, lines 26-30, 55-61, 85-89 and 114-120. The iterators, which are modelled by
    [SecoStatistics.changeCoverage], are replaced by a lookup. *)
Definition updatedCells (numCols : nat) (majority : list nat) (h : head) (row : nat) : list nat :=
  let predictions := match h with CompleteHead scores => combine (seq 0 numCols) scores
                     | PartialHead indices scores => combine indices scores end in
  flat_map (fun '(index, predicted) =>
    if negb (eqb predicted (existsb (Nat.eqb index) majority)) then [row * numCols + index] else []) predictions.

(** common/src/mlrl/common/rule_refinement/feature_space_tabular.cpp, lines 285-289 and 305-309: a single iteration. *)
Definition iterationProgram (numCols : nat) (majority : list nat) (h : head) (covers : nat -> bool) (thread i : nat)
    : list access :=
  if covers i then
    flat_map (fun p => [ReadCoverage thread p; LoadSum thread; StoreSum thread; WriteCoverage thread p])
      (updatedCells numCols majority h i)
  else [].

(** The programs of several threads, to which iterations are assigned. *)
Definition updatePrograms (numCols : nat) (majority : list nat) (h : head) (covers : nat -> bool) (assignment : list (list nat))
    : list (list access) :=
  map (fun '(thread, iterations) => flat_map (iterationProgram numCols majority h covers thread) iterations)
    (combine (seq 0 (length assignment)) assignment).

(** The contents of the memory; [junk]: the values of local variables that are not initialized. *)
Definition initialMemory (c : coverage) (junk : list (N * Z)) : memory := mkMemory (cvCounts c) (cvSum c) junk.

(** The same without support for multi-threading. *)
Definition updateSequentially (increase : bool) (numRows numCols : nat) (majority : list nat) (h : head) (covers : nat -> bool)
    (c : coverage) : option coverage :=
  forN numRows 0 (fun i c =>
    if covers i then (if increase then applyPrediction else revertPrediction) numCols i majority h c else Some c) c.

(** ** Boosting algorithms
    (boosting/src/mlrl/boosting/statistics/statistics_common.hpp, lines 460-471 and 516-524) *)

Section Boosting.
(** The scores and statistics of a single example. They are either stored in different elements of an array or in an own vector
    (boosting/src/mlrl/boosting/data/matrix_c_contiguous_numeric.cpp and matrix_sparse_set_numeric.cpp). *)
Context {Row : Type}.
(** Adding the [k]-th prediction of a rule to a score, or subtracting it, and updating the [k]-th element of the statistics, depending
    on the ground truth and the scores of an example with the given index. *)
Variable changeScore : nat -> Row -> option Row.
Variable updateStatistic : nat -> nat -> Row -> option Row.

Inductive rowAccess := ChangeScore (row k : nat) | UpdateStatistic (row k : nat).

Definition accessRow (a : rowAccess) (rows : list Row) : option (list Row) :=
  match a with
  | ChangeScore row k => let* r := aget rows row in let* r := changeScore k r in aset rows row r
  | UpdateStatistic row k => let* r := aget rows row in let* r := updateStatistic row k r in aset rows row r
  end.

(** feature_space_tabular.cpp, lines 285-289 and 305-309, and statistics_common.hpp, lines 516-524. *)
Definition rowProgram (numPredictions numStatistics : nat) (covers : nat -> bool) (i : nat) : list rowAccess :=
  if covers i then map (ChangeScore i) (seq 0 numPredictions) ++ map (UpdateStatistic i) (seq 0 numStatistics) else [].

(** See above (feature_space_tabular.cpp, lines 285-289 and 305-309; statistics_common.hpp, lines 516-524). *)
Definition rowPrograms (numPredictions numStatistics : nat) (covers : nat -> bool) (assignment : list (list nat))
    : list (list rowAccess) :=
  map (flat_map (rowProgram numPredictions numStatistics covers)) assignment.

(** The same without support for multi-threading: the scores of each covered example are changed, followed by its statistics. *)
Definition updateRows (numPredictions numStatistics : nat) (covers : nat -> bool) (rows : list Row) : option (list Row) :=
  forN (length rows) 0 (fun i rows =>
    if covers i then
      let* r := aget rows i in
      let* r := forN numPredictions 0 changeScore r in
      let* r := forN numStatistics 0 (updateStatistic i) r in
      aset rows i r
    else Some rows) rows.
End Boosting.
