(** Model of the prediction of scores and of the predictors built on top of it. *)
From Coq Require Import NArith Arith List Bool.
From Verif Require Import Lib.Arr Model.Rules.
Import ListNotations.

Section Prediction.
(** Scores with an arbitrary addition. Nothing is assumed about it, i.e. it may be the rounding addition of C++. *)
Context {V : Type} (add : V -> V -> V) (zero : V).

(** Complete and partial heads: cpp/subprojects/common/include/mlrl/common/model/head_complete.hpp, lines 13-60,
    and head_partial.hpp, lines 13-23. *)
Inductive head : Type := CompleteHead (scores : list V) | PartialHead (scores : list (nat * V)).

(** cpp/subprojects/boosting/include/mlrl/boosting/prediction/predictor_score_common.hpp, lines 17-24. *)
Definition applyCompleteHead (h : list V) (scores : list V) : option (list V) :=
  forN (length h) 0 (fun i scores =>
    let* s := aget scores i in
    let* v := aget h i in
    aset scores i (add s v)) scores.

(** Lines 26-35. *)
Definition applyPartialHead (h : list (nat * V)) (scores : list V) : option (list V) :=
  forN (length h) 0 (fun i scores =>
    let* (index, v) := aget h i in
    let* s := aget scores index in
    aset scores index (add s v)) scores.

(** Lines 37-45. *)
Definition applyHead (h : head) (scores : list V) : option (list V) :=
  match h with CompleteHead h => applyCompleteHead h scores | PartialHead h => applyPartialHead h scores end.

(** cpp/subprojects/common/include/mlrl/common/model/rule_list.hpp, lines 90-132. *)
Definition rule : Type := (body * head)%type.

(** predictor_score_common.hpp, lines 47-56. *)
Definition applyRuleDense (row : list fval) (r : rule) (scores : list V) : option (list V) :=
  let* covered := coversDense row (fst r) in
  if covered then applyHead (snd r) scores else Some scores.

(** Lines 58-66. *)
Definition applyRulesDense (row : list fval) (it stop : rlIter rule) (scores : list V) : option (list V) :=
  iterLoop it stop (applyRuleDense row) scores.

(** Lines 68-81. *)
Definition applyRuleSparse (entries : list (nat * fval)) (sparseValue : fval) (r : rule)
  (st : list V * (list fval * list N) * N) : option (list V * (list fval * list N)) :=
  let '(scores, tmp, n) := st in
  let* (covered, tmp) := coversSparse entries sparseValue tmp n (fst r) in
  if covered then let* scores := applyHead (snd r) scores in Some (scores, tmp) else Some (scores, tmp).

(** Lines 93-97: one iteration of the loop; [n] is an unsigned 32-bit number. *)
Definition sparseStep (entries : list (nat * fval)) (sparseValue : fval) (r : rule)
  (st : list V * (list fval * list N) * N) : option (list V * (list fval * list N) * N) :=
  let* (scores, tmp) := applyRuleSparse entries sparseValue r st in
  Some (scores, tmp, ((snd st + 1) mod 2 ^ 32)%N).

(** Lines 83-99. [junk]: content of the uninitialised array; its length is the number of features. *)
Definition applyRulesSparse (entries : list (nat * fval)) (sparseValue : fval) (junk : list fval) (it stop : rlIter rule)
  (scores : list V) : option (list V) :=
  let* (scores, _, _) :=
    iterLoop it stop (sparseStep entries sparseValue) (scores, (junk, repeat 0%N (length junk)), 1%N) in
  Some scores.

(** A dense or sparse feature matrix. *)
Inductive featureMatrix : Type :=
| DenseMatrix (rows : list (list fval))
| CsrMatrix (numCols : nat) (sparseValue : fval) (rows : list (list (nat * fval))).

Definition fmRows (m : featureMatrix) : nat :=
  match m with DenseMatrix rows => length rows | CsrMatrix _ _ rows => length rows end.

(** Lines 101-117. [junk]: content of an uninitialised cell. *)
Definition aggregateScores (junk : fval) (m : featureMatrix) (it stop : rlIter rule) (exampleIndex : nat)
  (scores : list V) : option (list V) :=
  match m with
  | DenseMatrix rows => let* row := aget rows exampleIndex in applyRulesDense row it stop scores
  | CsrMatrix numCols sparseValue rows =>
      let* entries := aget rows exampleIndex in
      applyRulesSparse entries sparseValue (repeat junk numCols) it stop scores
  end.

(** Lines 145-150 and 165-189, sequentially for all examples: scores are accumulated into the rows of the matrix. *)
Definition accumulateAll (junk : fval) (m : featureMatrix) (it stop : rlIter rule) (matrix : list (list V))
  : option (list (list V)) :=
  forN (fmRows m) 0 (fun i matrix =>
    let* row := aget matrix i in
    let* row := aggregateScores junk m it stop i row in
    aset matrix i row) matrix.

(** Lines 218-226 with a single thread. *)
Definition predictScores (junk : fval) (m : featureMatrix) (l : ruleList rule) (numOutputs maxRules : nat)
  : option (list (list V)) :=
  accumulateAll junk m (rlUsedBegin l maxRules) (rlUsedEnd l maxRules)
    (repeat (repeat zero numOutputs) (fmRows m)).

(** ** Incremental prediction *)

(** cpp/subprojects/common/include/mlrl/common/prediction/predictor_common.hpp, lines 187-234, together with the
    matrix of predictor_score_common.hpp, line 188. *)
Record incremental : Type := mkInc { incCurrent : rlIter rule; incEnd : rlIter rule; incMatrix : list (list V) }.

(** See above (cpp/subprojects/common/include/mlrl/common/prediction/predictor_common.hpp, lines 187-234;
    predictor_score_common.hpp, line 188). *)
Definition incCreate (m : featureMatrix) (l : ruleList rule) (numOutputs maxRules : nat) : incremental :=
  mkInc (rlUsedBegin l maxRules) (rlUsedEnd l maxRules) (repeat (repeat zero numOutputs) (fmRows m)).

(** predictor_common.hpp, lines 238-240. *)
Definition incNumNext (p : incremental) : nat := itDiff (incEnd p) (incCurrent p).

(** predictor_common.hpp, lines 242-248; predictor_score_common.hpp, lines 173-181. *)
Definition incApplyNext (junk : fval) (m : featureMatrix) (p : incremental) (stepSize : nat) : option incremental :=
  let next := itAdvance (incCurrent p) (Nat.min stepSize (incNumNext p)) in
  let* matrix := accumulateAll junk m (incCurrent p) next (incMatrix p) in
  Some (mkInc next (incEnd p) matrix).

(** A sequence of steps. *)
Fixpoint incRun (junk : fval) (m : featureMatrix) (p : incremental) (steps : list nat) : option incremental :=
  match steps with
  | [] => Some p
  | s :: steps' => let* p' := incApplyNext junk m p s in incRun junk m p' steps'
  end.

(** cpp/subprojects/boosting/include/mlrl/boosting/prediction/predictor_binary_common.hpp, lines 51-62 and 73-85:
    after each step all predictions are derived from the accumulated scores. *)
Definition incBinaryNext {O} (transform : list V -> O) (junk : fval) (m : featureMatrix) (p : incremental)
  (stepSize : nat) : option (incremental * list O) :=
  let* p' := incApplyNext junk m p stepSize in
  Some (p', map transform (incMatrix p')).

(** ** Parallel prediction *)

(** The memory that is shared by the threads: one private row of scores and one private counter per thread (a
    [reduction(+:...)] variable), and the rows of the resulting matrix. [O]: type of a row. *)
Record pstate (O : Type) : Type := mkPState { psScores : list (list V); psCount : list N; psOut : list O }.
Arguments mkPState {O}. Arguments psScores {O}. Arguments psCount {O}. Arguments psOut {O}.

(** Elementary steps of a thread [t] that processes the example [i]. *)
Inductive action : Type :=
| AZero (t : nat)               (* set the thread's scores to zero *)
| AScores (t i : nat)           (* add the scores of the covering rules *)
| ATransform (t i : nat)        (* derive the prediction *)
| ACount (t i : nat).           (* update the thread's counter *)

(** predictor_binary_common.hpp, lines 117-129 and 309-321; predictor_common.hpp, lines 80-87 and 164-172: what a thread
    executes for an example. *)
Definition exampleProgram (t i : nat) : list action := [AZero t; AScores t i; ATransform t i; ACount t i].

Context {O : Type} (transform : list V -> O) (size : O -> N).

(** One step. Accesses to rows that do not exist are undefined. *)
Definition execAction (junk : fval) (m : featureMatrix) (it stop : rlIter rule) (a : action) (s : pstate O)
  : option (pstate O) :=
  match a with
  | AZero t =>
      let* row := aget (psScores s) t in
      let* scores := aset (psScores s) t (repeat zero (length row)) in
      Some (mkPState scores (psCount s) (psOut s))
  | AScores t i =>
      let* row := aget (psScores s) t in
      let* row := aggregateScores junk m it stop i row in
      let* scores := aset (psScores s) t row in
      Some (mkPState scores (psCount s) (psOut s))
  | ATransform t i =>
      let* row := aget (psScores s) t in
      let* out := aset (psOut s) i (transform row) in
      Some (mkPState (psScores s) (psCount s) out)
  | ACount t i =>
      let* n := aget (psCount s) t in
      let* o := aget (psOut s) i in
      let* count := aset (psCount s) t ((n + size o) mod 2 ^ 32)%N in
      Some (mkPState (psScores s) count (psOut s))
  end.

Definition execAll (junk : fval) (m : featureMatrix) (it stop : rlIter rule) (l : list action) (s : pstate O)
  : option (pstate O) :=
  forL l (execAction junk m it stop) s.

(** The program of each thread, given the examples that are assigned to it. *)
Definition threadProgram (t : nat) (examples : list nat) : list action := flat_map (exampleProgram t) examples.
Definition threadPrograms (assignment : list (list nat)) : list (list action) :=
  map (fun '(t, examples) => threadProgram t examples) (combine (seq 0 (length assignment)) assignment).

(** The [reduction(+:...)] at the end of the loop. *)
Definition reduceCounts (counts : list N) : N := fold_left (fun a b => (a + b) mod 2 ^ 32)%N counts 0%N.

End Prediction.
Arguments head : clear implicits.
Arguments rule : clear implicits.
Arguments incremental : clear implicits.
Arguments mkPState {V O}. Arguments psScores {V O}. Arguments psCount {V O}. Arguments psOut {V O}.
