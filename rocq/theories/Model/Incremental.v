(** * Obtaining predictions from Python

    Model of the methods of python/subprojects/common/mlrl/common/rule_learners.py and mixins.py that obtain predictions, of the classes in
    python/subprojects/common/mlrl/common/cython/prediction.pyx they rely on, and of the evaluation of predictions in
    python/subprojects/testbed/mlrl/testbed/experiments.py. The life time of objects is taken into account.

    Simplifications: The predictions for all query examples are considered as a single value that is obtained from an accumulator, which
    is updated by each rule (any function of the rules can be represented like this). There is a single incremental predictor. Predictors
    that use a sparse format are not considered. Objects are deleted by Python as soon as there is no reference to them. *)

From Coq Require Import List Bool Arith ZArith.
From Verif Require Import Lib.Arr Model.Estimators.
Import ListNotations.

(** ** Predictors *)

(** The number of rules to be used for prediction (cpp/subprojects/common/src/mlrl/common/model/rule_list.cpp, lines 90-98). *)
Definition numRules (numUsedRules maxRules : nat) : nat :=
  if 0 <? maxRules then Nat.min numUsedRules maxRules else numUsedRules.

(** The kinds of predictions. *)
Inductive kind := DenseBinary | Scores | Probabilities (numLabels : nat).

(** Whether the method [apply_next] of a native predictor checks that the step size is at least one (prediction.pyx, line 46, in contrast
    to lines 215-229 and 298-313). *)
Definition checksStepSize (k : kind) : bool := match k with DenseBinary => true | _ => false end.

(** Whether the array that is returned by the method [apply_next] of a native predictor provides access to the memory of the predictor
    (prediction.pyx, lines 37-52, 215-229 and 298-313, _arrays.pxd, lines 52-64 and 82-94). Probabilities for a single label are copied (rule_learners.py,
    lines 398-410 and 424-425). *)
Definition returnsView (k : kind) : bool := match k with Probabilities 1 => false | _ => true end.

(** An array that has been returned to the user: It provides access to the memory of the incremental predictor or owns its memory. *)
Inductive result (P : Type) := View | Owned (p : P).
Arguments View {P}. Arguments Owned {P}.

(** An incremental predictor. It refers to a rule model, without having a reference that is known to Python (rule_learners.py, lines
    120-127 and 152-166, prediction.pxd, lines 89-142). *)
Inductive predictor (A : Type) :=
| Native (k : kind) (model current last : nat) (acc : A)
| NonNative (k : kind) (model numTotalRules numConsideredRules : nat).
Arguments Native {A}. Arguments NonNative {A}.

(** The state of a program: the used rules of all models that have been learned, unless they have been deleted, the model the estimator
    refers to, unless it has been deleted, the incremental predictor, unless it has been deleted, its memory and the arrays that have been
    obtained so far. *)
Record world (R A P : Type) := World {
  wmodels : list (option (list R));
  westimator : option nat;
  wpredictor : option (predictor A);
  wmemory : option P;
  wresults : list (result P)
}.
Arguments World {R A P}. Arguments wmodels {R A P}. Arguments westimator {R A P}. Arguments wpredictor {R A P}.
Arguments wmemory {R A P}. Arguments wresults {R A P}.

(** The rules of a model; the outcome [None] is the use of a model that has been deleted. *)
Definition rulesOf {R} (models : list (option (list R))) (m : nat) : option (list R) := let* r := aget models m in r.

(** The prediction by means of the method [predict] (rule_learners.py, lines 228-243, 472-490 and 550-568). *)
Definition predict {R A P} (step : A -> R -> A) (init : A) (out : A -> P) (rules : list R) (maxRules : nat) : P :=
  out (fold_left step (firstn (numRules (length rules) maxRules) rules) init).

(** The creation of an incremental predictor for the model of an estimator (rule_learners.py, lines 152-166, 258-267, 504-517 and
    580-595, predictor_common.hpp, lines 231-234). *)
Definition createIncremental {R A P} (init : A) (empty : P) (native : bool) (k : kind) (rules : list R) (maxRules : nat) : world R A P :=
  let total := numRules (length rules) maxRules in
  {| wmodels := [Some rules]; westimator := Some 0;
     wpredictor := Some (if native then Native k 0 0 total init else NonNative k 0 total 0);
     wmemory := Some empty; wresults := [] |}.

(** The method [get_num_next] (rule_learners.py, lines 168-172, and predictor_common.hpp, lines 238-240). *)
Definition getNumNext {A} (p : predictor A) : nat :=
  match p with Native _ _ current last _ => last - current | NonNative _ _ total considered => total - considered end.

(** The statements of a program. *)
Inductive statement (R : Type) := ApplyNext (stepSize : nat) | Fit (rules : list R) | DeleteEstimator | DeletePredictor.
Arguments ApplyNext {R}. Arguments Fit {R}. Arguments DeleteEstimator {R}. Arguments DeletePredictor {R}.

(** The deletion of the model an estimator refers to. *)
Definition deleteModel {R A P} (w : world R A P) : list (option (list R)) :=
  match westimator w with Some m => upd (wmodels w) m None | None => wmodels w end.

(** The method [apply_next] (rule_learners.py, lines 141-145 and 174-180, predictor_common.hpp, lines 242-248). If an exception is raised,
    the state is not changed. *)
Definition applyNext {R A P} (step : A -> R -> A) (init : A) (out : A -> P) (stepSize : nat) (w : world R A P) : option (world R A P) :=
  match wpredictor w with
  | None => Some w
  | Some (Native k m current last acc) =>
      if checksStepSize k && (stepSize =? 0) then Some w
      else
        let next := current + Nat.min stepSize (last - current) in
        let* acc' := (if next =? current then Some acc
                      else let* rules := rulesOf (wmodels w) m in
                           Some (fold_left step (firstn (next - current) (skipn current rules)) acc)) in
        Some {| wmodels := wmodels w; westimator := westimator w; wpredictor := Some (Native k m next last acc');
                wmemory := Some (out acc');
                wresults := wresults w ++ [if returnsView k then View else Owned (out acc')] |}
  | Some (NonNative k m total considered) =>
      if stepSize =? 0 then Some w
      else
        let considered' := Nat.min total (considered + stepSize) in
        let* rules := rulesOf (wmodels w) m in
        Some {| wmodels := wmodels w; westimator := westimator w; wpredictor := Some (NonNative k m total considered');
                wmemory := wmemory w;
                wresults := wresults w ++ [Owned (predict step init out rules considered')] |}
  end.

(** The execution of a statement. Fitting an estimator results in the previous model being deleted (mixins.py, lines 88-100). *)
Definition execute {R A P} (step : A -> R -> A) (init : A) (out : A -> P) (s : statement R) (w : world R A P) : option (world R A P) :=
  match s with
  | ApplyNext stepSize => applyNext step init out stepSize w
  | Fit rules =>
      match westimator w with
      | None => Some w
      | Some _ =>
          Some {| wmodels := deleteModel w ++ [Some rules]; westimator := Some (length (wmodels w)); wpredictor := wpredictor w;
                  wmemory := wmemory w; wresults := wresults w |}
      end
  | DeleteEstimator =>
      Some {| wmodels := deleteModel w; westimator := None; wpredictor := wpredictor w; wmemory := wmemory w; wresults := wresults w |}
  | DeletePredictor =>
      Some {| wmodels := wmodels w; westimator := westimator w; wpredictor := None; wmemory := None; wresults := wresults w |}
  end.

Definition run {R A P} (step : A -> R -> A) (init : A) (out : A -> P) (program : list (statement R)) (w : world R A P)
  : option (world R A P) :=
  forL program (execute step init out) w.

(** The content of an array that has been returned to the user; the outcome [None] is the use of memory that has been freed. *)
Definition readResult {R A P} (w : world R A P) (r : result P) : option P :=
  match r with Owned p => Some p | View => wmemory w end.

(** ** Predictions that are not supported *)

(** The methods for obtaining predictions. *)
Inductive method :=
| PredictScores | PredictBinary | PredictProba | PredictScoresIncrementally | PredictBinaryIncrementally | PredictProbaIncrementally.

(** The outcome of calling a method: a prediction (or a predictor), the exception [RuntimeError] that is documented, or an exception that
    is raised if the number of nested calls exceeds a limit. *)
Inductive callOutcome := Predicted | NotSupported | RecursionError.

(** A method of a mixin, which raises an exception (mixins.py, lines 146-177, 214-245, 294-303 and 324-333), given the number of nested
    calls that are still allowed. *)
Definition mixinMethod (limit : nat) : callOutcome := match limit with 0 => RecursionError | S _ => NotSupported end.

(** A method of an estimator that obtains predictions if this is [supported] by the configuration, and calls the corresponding method of
    the mixin, otherwise (rule_learners.py, lines 228-269, 472-490 and 550-597), together with the number of feature matrices that are
    created. *)
Definition estimatorMethod (supported : bool) (limit : nat) : callOutcome * nat :=
  match limit with
  | 0 => (RecursionError, 0)
  | S limit => (if supported then Predicted else mixinMethod limit, 1)
  end.

(** The methods [predict_proba_incrementally] (mixins.py, lines 202-212) and [_predict_proba_incrementally] (rule_learners.py, lines
    492-519), which call each other. *)
Fixpoint predictProbaIncrementally (supported : bool) (limit : nat) : callOutcome * nat :=
  match limit with
  | 0 => (RecursionError, 0)
  | S limit => _predictProbaIncrementally supported limit
  end
with _predictProbaIncrementally (supported : bool) (limit : nat) : callOutcome * nat :=
  match limit with
  | 0 => (RecursionError, 0)
  | S limit =>
      if supported then (Predicted, 1)
      else let (o, n) := predictProbaIncrementally supported limit in (o, n + 1)
  end.

(** The call of a method by the user (mixins.py, lines 102-131 and 187-212). *)
Definition callMethod (m : method) (supported : bool) (limit : nat) : callOutcome * nat :=
  match m with
  | PredictProbaIncrementally => predictProbaIncrementally supported limit
  | _ => match limit with 0 => (RecursionError, 0) | S limit => estimatorMethod supported limit end
  end.

(** ** Evaluation *)

(** The types of predictions to be evaluated. *)
Inductive predictionType := BINARY | SCORES | PROBABILITIES.

(** The feature matrix that is used for training, given the value of the argument "--sparse-feature-value" (experiments.py, lines
    421-442, and runnables.py, lines 1235-1248). *)
Definition trainingMatrix (p : policy) (x : input fvalue) (sparseFeatureValue : fvalue) : option (created fmatrix) :=
  createFeatureMatrix true p x sparseFeatureValue.

(** The feature matrix that is used for obtaining the predictions to be evaluated: The keyword arguments are not passed to the function
    that predicts probabilities (experiments.py, lines 44-80), whose default value is used (rule_learners.py, line 332). *)
Definition evaluationMatrix (t : predictionType) (p : policy) (x : input fvalue) (sparseFeatureValue : fvalue)
  : option (created fmatrix) :=
  createFeatureMatrix false p x (match t with PROBABILITIES => Some 0%Z | _ => sparseFeatureValue end).

(** The loop of an incremental evaluation (experiments.py, lines 203-224), given the number of rules that are considered by the incremental
    predictor and that are available to it. The pairs that are returned consist of the size of the model that is reported and the number of
    rules the evaluated predictions have been obtained with. The argument [fuel] limits the number of iterations. *)
Fixpoint evaluateLoop (fuel : nat) (stepSize totalSize nextStepSize currentSize considered available : nat) : list (nat * nat) :=
  match fuel with
  | 0 => []
  | S fuel =>
      if 0 <? available - considered then
        let considered' := Nat.min available (considered + nextStepSize) in
        (currentSize, considered') ::
        evaluateLoop fuel stepSize totalSize stepSize (Nat.min (currentSize + stepSize) totalSize) considered' available
      else []
  end.

(** experiments.py, lines 181-224. Each iteration uses at least one rule. *)
Definition evaluateIncrementally (minSize maxSize stepSize available : nat) : list (nat * nat) :=
  let totalSize := if 0 <? maxSize then Nat.min maxSize available else available in
  let nextStepSize := if 0 <? minSize then minSize else stepSize in
  let currentSize := Nat.min nextStepSize totalSize in
  evaluateLoop (S available) stepSize totalSize nextStepSize currentSize 0 available.

(** The options that are accepted (runnables.py, lines 1369-1375). *)
Definition validOptions (minSize maxSize stepSize : nat) : bool :=
  ((maxSize =? 0) || (minSize <? maxSize)) && (1 <=? stepSize).
