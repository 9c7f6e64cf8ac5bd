(** Properties of updating statistics in parallel. *)
From Coq Require Import ZArith NArith Arith List Bool Sorted Lia Permutation.
From Verif Require Import Lib.Arr Model.SecoStatistics Model.ParallelUpdate Spec.Interleaving Spec.Seco Spec.ParallelUpdate
  Proofs.ParallelUpdate.
Import ListNotations.
Open Scope nat_scope.

(** ** C140: false; full statement: if the statistics are updated by several threads, according to the predictions of a rule, the
    statistics are the same as if they are updated by a single thread, regardless of the assignment of examples to threads and of the
    order in which the threads are executed. *)

(** Missing: separate-and-conquer algorithms. The scores and statistics of boosting algorithms do not depend on the threads. *)
Theorem C140_boosting_partial : forall (Row : Type) (changeScore : nat -> Row -> option Row) (updateStatistic : nat -> nat -> Row -> option Row)
    numPredictions numStatistics covers rows assignment interleaved,
  assigned (length rows) assignment ->
  interleaving (rowPrograms numPredictions numStatistics covers assignment) interleaved ->
  forL interleaved (accessRow changeScore updateStatistic) rows
  = updateRows changeScore updateStatistic numPredictions numStatistics covers rows.
Proof. exact rows_parallel. Qed.
Print Assumptions C140_boosting_partial.

Example C140_boosting_partial_example :
  let changeScore := fun k (row : list Z * list Z) => let* x := aget (fst row) k in Some (upd (fst row) k (x + 5)%Z, snd row) in
  let updateStatistic := fun i k (row : list Z * list Z) => let* x := aget (fst row) k in
    Some (fst row, upd (snd row) k (2 * (x - Z.of_nat i))%Z) in
  let rows := repeat ([0; 1], [0; 0])%Z 2 in
  assigned 2 [[1]; [0]] /\
  interleaving (rowPrograms 1 1 (fun _ => true) [[1]; [0]])
    [ChangeScore 1 0; ChangeScore 0 0; UpdateStatistic 0 0; UpdateStatistic 1 0] /\
  updateRows changeScore updateStatistic 1 1 (fun _ => true) rows = Some [([5; 1], [10; 0]); ([5; 1], [8; 0])]%Z.
Proof.
  split; [repeat constructor|]. split; [|reflexivity].
  apply (il_step [] _ _ [_]). apply (il_step [_] _ _ []). apply (il_step [_] _ _ []). apply (il_step [] _ _ [_]).
  apply il_done. repeat constructor.
Qed.

(** Missing: the sum of the uncovered weights. It is between its original and its correct value. *)
Theorem C140_coverage_partial : forall increase numRows numCols majority h covers counts sum assignment interleaved junk,
  StronglySorted lt majority -> valid_head numCols h -> length counts = numRows * numCols -> valid_counts counts ->
  assigned numRows assignment -> length junk = length assignment ->
  interleaving (updatePrograms numCols majority h covers assignment) interleaved ->
  exists c m,
  updateSequentially increase numRows numCols majority h covers (mkCoverage counts sum) = Some c /\
  forL interleaved (accessMemory increase) (initialMemory (mkCoverage counts sum) junk) = Some m /\
  mCounts m = cvCounts c /\ between sum (cvSum c) (mSum m) /\
  (if increase then (cvSum c <= sum)%Z else (sum <= cvSum c)%Z).
Proof. exact update_parallel. Qed.
Print Assumptions C140_coverage_partial.

Example C140_coverage_partial_example :
  let counts := [0; 1; 0; 2; 0; 0]%N in
  let h := PartialHead [0; 2] [true; true] in
  StronglySorted lt [2] /\ valid_head 3 h /\ length counts = 2 * 3 /\ valid_counts counts /\ assigned 2 [[1]; [0]] /\
  interleaving (updatePrograms 3 [2] h (fun i => i =? 0) [[1]; [0]])
    [ReadCoverage 1 0; LoadSum 1; StoreSum 1; WriteCoverage 1 0] /\
  updateSequentially true 2 3 [2] h (fun i => i =? 0) (mkCoverage counts 4) = Some (mkCoverage [1; 1; 0; 2; 0; 0]%N 3).
Proof.
  split; [repeat constructor|]. split; [repeat split; repeat constructor|]. split; [reflexivity|].
  split; [repeat apply Forall_cons; try apply Forall_nil; reflexivity|]. split; [repeat constructor|]. split; [|reflexivity].
  apply (il_step [_] _ _ []). apply (il_step [_] _ _ []). apply (il_step [_] _ _ []). apply (il_step [_] _ _ []).
  apply il_done. repeat constructor.
Qed.

(** Missing: several threads. The order in which the examples are processed does not matter. *)
Theorem C140_single_thread_partial : forall increase numRows numCols majority h covers counts sum iterations interleaved junk,
  StronglySorted lt majority -> valid_head numCols h -> length counts = numRows * numCols -> valid_counts counts ->
  assigned numRows [iterations] -> length junk = 1 ->
  interleaving (updatePrograms numCols majority h covers [iterations]) interleaved ->
  exists c m,
  updateSequentially increase numRows numCols majority h covers (mkCoverage counts sum) = Some c /\
  forL interleaved (accessMemory increase) (initialMemory (mkCoverage counts sum) junk) = Some m /\
  mCounts m = cvCounts c /\ mSum m = cvSum c.
Proof. exact update_single_thread. Qed.
Print Assumptions C140_single_thread_partial.

Example C140_single_thread_partial_example :
  assigned 3 [[2; 0; 1]] /\
  interleaving (updatePrograms 1 [] (CompleteHead [true]) (fun i => 1 <=? i) [[2; 0; 1]])
    [ReadCoverage 0 2; LoadSum 0; StoreSum 0; WriteCoverage 0 2; ReadCoverage 0 1; LoadSum 0; StoreSum 0; WriteCoverage 0 1] /\
  updateSequentially false 3 1 [] (CompleteHead [true]) (fun i => 1 <=? i) (mkCoverage [1; 1; 2]%N 0)
  = Some (mkCoverage [1; 0; 1]%N 1).
Proof.
  split; [|split; [|reflexivity]].
  - unfold assigned. cbn [seq concat app]. apply Permutation_sym. apply (Permutation_cons_app [0; 1] []). apply Permutation_refl.
  - do 8 apply (il_step [] _ _ []). apply il_done. repeat constructor.
Qed.

(** All labels are covered, but the stopping criterion, which checks the sum of the uncovered weights, is not satisfied, because an update
    has been lost. *)
Theorem C140_lost_refuted : exists numRows numCols majority h covers counts sum assignment interleaved junk c m,
  StronglySorted lt majority /\ valid_head numCols h /\ length counts = numRows * numCols /\ valid_counts counts /\
  assigned numRows assignment /\ length junk = length assignment /\
  interleaving (updatePrograms numCols majority h covers assignment) interleaved /\
  updateSequentially true numRows numCols majority h covers (mkCoverage counts sum) = Some c /\
  forL interleaved (accessMemory true) (initialMemory (mkCoverage counts sum) junk) = Some m /\
  mCounts m = cvCounts c /\ coverageStops 0 c = true /\ coverageStops 0 (mkCoverage (mCounts m) (mSum m)) = false.
Proof. exact updates_lost. Qed.
Print Assumptions C140_lost_refuted.

(** Whenever the labels of two examples are covered for the first time and the examples are assigned to different threads, there is an
    order of execution, in which an update is lost. *)
Theorem C140_any_lost_refuted : forall numRows numCols majority h covers counts sum first second junk,
  StronglySorted lt majority -> valid_head numCols h -> length counts = numRows * numCols -> valid_counts counts ->
  assigned numRows [first; second] -> length junk = 2 ->
  newlyCovered numCols majority h covers counts first -> newlyCovered numCols majority h covers counts second ->
  exists interleaved c m,
  interleaving (updatePrograms numCols majority h covers [first; second]) interleaved /\
  updateSequentially true numRows numCols majority h covers (mkCoverage counts sum) = Some c /\
  forL interleaved (accessMemory true) (initialMemory (mkCoverage counts sum) junk) = Some m /\
  mCounts m = cvCounts c /\ (cvSum c < mSum m)%Z.
Proof. exact updates_may_be_lost. Qed.
Print Assumptions C140_any_lost_refuted.

Example C140_any_lost_refuted_example :
  assigned 3 [[0; 2]; [1]] /\ newlyCovered 2 [1] (CompleteHead [true; true]) (fun _ => true) [1; 0; 0; 0; 0; 0]%N [0; 2] /\
  newlyCovered 2 [1] (CompleteHead [true; true]) (fun _ => true) [1; 0; 0; 0; 0; 0]%N [1].
Proof.
  split; [unfold assigned; cbn [seq concat app]; apply perm_skip; apply perm_swap|]. split.
  - exists 2, 0. repeat split; auto. right. left. reflexivity.
  - exists 1, 0. repeat split; auto. left. reflexivity.
Qed.
