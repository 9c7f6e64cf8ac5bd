(** Model of the loss functions used by boosting algorithms. Paths are relative to
    cpp/subprojects/boosting/src/mlrl/boosting/losses unless stated otherwise. Values of type [float64] are real numbers; there
    is no rounding and no overflow. Iterators that provide access to the ground truth of an example are represented by the list
    of the values they return. Arrays of tuples are represented by two arrays. Functions that use [std::exp]
    have an argument [e] that stands for this function. *)
From Coq Require Import Reals List Bool Arith.
From Verif Require Import Lib.Arr.
Import ListNotations.
Open Scope R_scope.

(** cpp/subprojects/common/include/mlrl/common/util/math.hpp, lines 19-22. *)
Definition divideOrZero (numerator denominator : R) : R :=
  if Req_EM_T denominator 0 then 0 else numerator / denominator.

(** The function [std::pow], if the exponent is 1.5 and the base is not negative. *)
Definition pow15 (x : R) : R := if Rlt_dec 0 x then Rpower x (3 / 2) else 0.

(** cpp/subprojects/common/include/mlrl/common/data/types.hpp, lines 49-54 and 62-65. *)
Definition isEqualToZero (a : R) : bool :=
  if Rle_dec (Rabs (a - 0)) (/ 2 ^ 52 * Rmax 1 (Rmax (Rabs a) (Rabs 0))) then true else false.

(** ** Decomposable loss functions *)

(** include/mlrl/boosting/util/math.hpp, lines 126-134. *)
Definition logisticFunction (e : R -> R) (x : R) : R :=
  if Rlt_dec x 0 then let exponential := e x in exponential / (1 + exponential)
  else let exponential := e (- x) in 1 / (1 + exponential).

(** loss_decomposable_logistic.cpp, lines 21-29. *)
Definition squaredLogisticFunction (e : R -> R) (x : R) : R :=
  if Rlt_dec x 0 then let exponential := e x in (exponential * exponential) / ((exponential + 1) * (exponential + 1))
  else let exponential := e (- x) in 1 / ((exponential + 1) * (exponential + 1)).

(** loss_decomposable_logistic.cpp, lines 41-47. *)
Definition logSumExp (e : R -> R) (x : R) : R :=
  if Rgt_dec x 0 then x + ln (e (0 - x) + 1) else ln (1 + e x).

(** loss_decomposable_logistic.cpp, lines 49-59 and 61-65. *)
Definition updateLogistic (e : R -> R) (trueLabel : bool) (predictedScore : R) : R * R :=
  let logistic := logisticFunction e predictedScore in
  (if trueLabel then logistic - 1 else logistic, logistic - squaredLogisticFunction e predictedScore).
(** See above (loss_decomposable_logistic.cpp, lines 49-59 and 61-65). *)
Definition evaluateLogistic (e : R -> R) (trueLabel : bool) (predictedScore : R) : R :=
  logSumExp e (if trueLabel then - predictedScore else predictedScore).

(** loss_decomposable_squared_hinge.cpp, lines 7-24 and 26-40. *)
Definition updateSquaredHinge (trueLabel : bool) (predictedScore : R) : R * R :=
  (if trueLabel then if Rlt_dec predictedScore 1 then predictedScore - 1 else 0
   else if Rgt_dec predictedScore 0 then predictedScore else 0, 1).
(** See above (loss_decomposable_squared_hinge.cpp, lines 7-24 and 26-40). *)
Definition evaluateSquaredHinge (trueLabel : bool) (predictedScore : R) : R :=
  if trueLabel then if Rlt_dec predictedScore 1 then (1 - predictedScore) * (1 - predictedScore) else 0
  else if Rgt_dec predictedScore 0 then predictedScore * predictedScore else 0.

(** loss_decomposable_squared_error.cpp, lines 7-11, 13-16, 18-21 and 23-25. *)
Definition updateSquaredErrorRegression (expectedScore predictedScore : R) : R * R := (predictedScore - expectedScore, 1).
(** See above (loss_decomposable_squared_error.cpp, lines 7-11, 13-16, 18-21 and 23-25). *)
Definition updateSquaredErrorClassification (trueLabel : bool) (predictedScore : R) : R * R :=
  updateSquaredErrorRegression (if trueLabel then 1 else -1) predictedScore.
(** See above (loss_decomposable_squared_error.cpp, lines 7-11, 13-16, 18-21 and 23-25). *)
Definition evaluateSquaredErrorRegression (expectedScore predictedScore : R) : R :=
  let difference := expectedScore - predictedScore in difference * difference.
(** See above (loss_decomposable_squared_error.cpp, lines 7-11, 13-16, 18-21 and 23-25). *)
Definition evaluateSquaredErrorClassification (trueLabel : bool) (predictedScore : R) : R :=
  evaluateSquaredErrorRegression (if trueLabel then 1 else -1) predictedScore.

(** loss_decomposable_common.hpp, lines 15-27. *)
Definition updateComplete {T} (update : T -> R -> R * R) (scores : list R) (truth : list T) (numOutputs : nat)
    (gradients hessians : list R) : option (list R * list R) :=
  forN numOutputs 0 (fun i '(gradients, hessians) =>
    let* groundTruth := aget truth i in
    let* predictedScore := aget scores i in
    let (gradient, hessian) := update groundTruth predictedScore in
    let* gradients := aset gradients i gradient in
    let* hessians := aset hessians i hessian in
    Some (gradients, hessians)) (gradients, hessians).

(** loss_decomposable_common.hpp, lines 29-42. *)
Definition updatePartial {T} (update : T -> R -> R * R) (scores : list R) (truth : list T) (indices : list nat)
    (gradients hessians : list R) : option (list R * list R) :=
  forN (length indices) 0 (fun i '(gradients, hessians) =>
    let* index := aget indices i in
    let* groundTruth := aget truth index in
    let* predictedScore := aget scores index in
    let (gradient, hessian) := update groundTruth predictedScore in
    let* gradients := aset gradients index gradient in
    let* hessians := aset hessians index hessian in
    Some (gradients, hessians)) (gradients, hessians).

(** loss_decomposable_common.hpp, lines 249-259: the overload for regression problems. *)
Definition updatePartialRegression (update : R -> R -> R * R) (scores truth : list R) (indices : list nat)
    (gradients hessians : list R) : option (list R * list R) :=
  updateComplete update scores truth (length indices) gradients hessians.

(** loss_decomposable_common.hpp, lines 44-59 (and lines 179-195).
    cpp/subprojects/common/include/mlrl/common/util/math.hpp, [iterativeArithmeticMean]. *)
Definition evaluateMean {T} (evaluate : T -> R -> R) (scores : list R) (truth : list T) (numOutputs : nat) : option R :=
  forN numOutputs 0 (fun i mean =>
    let* predictedScore := aget scores i in
    let* groundTruth := aget truth i in
    let score := evaluate groundTruth predictedScore in
    Some (mean + (score - mean) / INR (i + 1))) 0.

(** ** Non-decomposable loss functions *)

(** The loop that stores a value for each output in the array of gradients and sums up these values.
    loss_non_decomposable_squared_hinge.cpp, lines 19-43 and 95-119, and
    loss_non_decomposable_squared_error.cpp, lines 25-35 and 73-83. *)
Definition storeTerms {T} (term : T -> R -> R) (scores : list R) (truth : list T) (gradients : list R) : option (list R * R) :=
  forN (length truth) 0 (fun i '(gradients, denominator) =>
    let* predictedScore := aget scores i in
    let* groundTruth := aget truth i in
    let x := term groundTruth predictedScore in
    let* gradients := aset gradients i x in
    Some (gradients, denominator + x)) (gradients, 0).

(** The loop that writes gradients and Hessians. [statistics]: the gradient and Hessian of an output, depending on its ground
    truth, its predicted score and the value that is stored in the array of gradients.
    loss_non_decomposable_squared_hinge.cpp, lines 52-80, loss_non_decomposable_squared_error.cpp, lines 44-58, and
    loss_non_decomposable_logistic.cpp, lines 64-72. *)
Definition writeDecomposable {T} (statistics : T -> R -> R -> R * R) (scores : list R) (truth : list T)
    (gradients hessians : list R) : option (list R * list R) :=
  forN (length truth) 0 (fun i '(gradients, hessians) =>
    let* predictedScore := aget scores i in
    let* groundTruth := aget truth i in
    let* x := aget gradients i in
    let (gradient, hessian) := statistics groundTruth predictedScore x in
    let* gradients := aset gradients i gradient in
    let* hessians := aset hessians i hessian in
    Some (gradients, hessians)) (gradients, hessians).

(** The loop that writes gradients and a triangle of Hessians. [offDiagonal]: the Hessian of two outputs, depending on the ground
    truth, score and gradient of the first one and the ground truth and score of the second one.
    loss_non_decomposable_squared_hinge.cpp, lines 128-196, loss_non_decomposable_squared_error.cpp, lines 92-121, and
    loss_non_decomposable_logistic.cpp, lines 130-156. *)
Definition writeNonDecomposable {T} (statistics : T -> R -> R -> R * R) (offDiagonal : T -> R -> R -> T -> R -> R)
    (scores : list R) (truth : list T) (gradients hessians : list R) : option (list R * list R) :=
  let* (gradients, hessians, _) := forN (length truth) 0 (fun i '(gradients, hessians, k) =>
    let* predictedScore := aget scores i in
    let* groundTruth := aget truth i in
    let* x := aget gradients i in
    let (gradient, hessian) := statistics groundTruth predictedScore x in
    let* (hessians, k) := forN i 0 (fun j '(hessians, k) =>
      let* predictedScore2 := aget scores j in
      let* groundTruth2 := aget truth j in
      let* hessians := aset hessians k (offDiagonal groundTruth predictedScore gradient groundTruth2 predictedScore2) in
      Some (hessians, (k + 1)%nat)) (hessians, k) in
    let* gradients := aset gradients i gradient in
    let* hessians := aset hessians k hessian in
    Some (gradients, hessians, (k + 1)%nat)) (gradients, hessians, 0%nat) in
  Some (gradients, hessians).

(** loss_non_decomposable_logistic.cpp, lines 10-23. *)
Definition updateGradientAndHessian (e : R -> R) (invertedExpectedScore x max sumExp : R) : R * R :=
  let xExp := e (x - max) in
  let tmp := divideOrZero xExp sumExp in
  (invertedExpectedScore * tmp, tmp * (1 - tmp)).

(** loss_non_decomposable_logistic.cpp, lines 25-73. *)
Definition updateDecomposableLogisticND (e : R -> R) (scores : list R) (labels : list bool) (gradients hessians : list R)
    : option (list R * list R) :=
  let* (gradients, max) := forN (length labels) 0 (fun c '(gradients, max) =>
    let* predictedScore := aget scores c in
    let* trueLabel := aget labels c in
    let x := if trueLabel then - predictedScore else predictedScore in
    let* gradients := aset gradients c x in
    Some (gradients, if Rgt_dec x max then x else max)) (gradients, 0) in
  let* sumExp := forN (length labels) 0 (fun c sumExp =>
    let* x := aget gradients c in Some (sumExp + e (x - max))) (e (0 - max)) in
  writeDecomposable (fun (trueLabel : bool) predictedScore _ =>
    let invertedExpectedScore := if trueLabel then -1 else 1 in
    let x := predictedScore * invertedExpectedScore in
    updateGradientAndHessian e invertedExpectedScore x max sumExp) scores labels gradients hessians.

(** loss_non_decomposable_logistic.cpp, lines 75-157. *)
Definition updateLogisticND (e : R -> R) (scores : list R) (labels : list bool) (gradients hessians : list R)
    : option (list R * list R) :=
  let* (gradients, max, max2) := forN (length labels) 0 (fun c '(gradients, max, max2) =>
    let* predictedScore := aget scores c in
    let* trueLabel := aget labels c in
    let x := if trueLabel then - predictedScore else predictedScore in
    let* gradients := aset gradients c x in
    Some (if Rgt_dec x max then (gradients, x, max)
          else if Rgt_dec x max2 then (gradients, max, x) else (gradients, max, max2))) (gradients, 0, 0) in
  let max2 := max2 + max in
  let* (sumExp, sumExp2) := forN (length labels) 0 (fun c '(sumExp, sumExp2) =>
    let* x := aget gradients c in
    Some (sumExp + e (x - max), sumExp2 + e (x - max2))) (e (0 - max), e (0 - max2)) in
  let zeroExp := divideOrZero (e (0 - max2)) sumExp2 in
  writeNonDecomposable (fun (trueLabel : bool) predictedScore _ =>
      let invertedExpectedScore := if trueLabel then -1 else 1 in
      let x := predictedScore * invertedExpectedScore in
      updateGradientAndHessian e invertedExpectedScore x max sumExp)
    (fun (trueLabel : bool) predictedScore _ (trueLabel2 : bool) predictedScore2 =>
      let invertedExpectedScore := if trueLabel then -1 else 1 in
      let x := predictedScore * invertedExpectedScore in
      let expectedScore2 := if trueLabel2 then 1 else -1 in
      let x2 := predictedScore2 * - expectedScore2 in
      invertedExpectedScore * expectedScore2 * divideOrZero (e (x + x2 - max2)) sumExp2 * zeroExp)
    scores labels gradients hessians.

(** loss_non_decomposable_logistic.cpp, lines 159-197. *)
Definition evaluateLogisticND (e : R -> R) (scores : list R) (labels : list bool) : option R :=
  let* max := forN (length labels) 0 (fun i max =>
    let* trueLabel := aget labels i in
    let* predictedScore := aget scores i in
    let x := if trueLabel then - predictedScore else predictedScore in
    Some (if Rgt_dec x max then x else max)) 0 in
  let* sumExp := forN (length labels) 0 (fun i sumExp =>
    let* trueLabel := aget labels i in
    let* predictedScore := aget scores i in
    let x := if trueLabel then - predictedScore else predictedScore in
    Some (sumExp + e (x - max))) (e (0 - max)) in
  Some (max + ln sumExp).

(** loss_non_decomposable_squared_hinge.cpp, lines 26-38 and 102-114. *)
Definition hingeTerm (trueLabel : bool) (predictedScore : R) : R :=
  if trueLabel then
    if Rlt_dec predictedScore 1 then predictedScore * predictedScore - 2 * predictedScore + 1 else 0
  else if Rgt_dec predictedScore 0 then predictedScore * predictedScore else 0.

(** loss_non_decomposable_squared_hinge.cpp, lines 59-75 and 134-150. *)
Definition hingeStatistics (denominator denominatorGradient denominatorHessian : R) (trueLabel : bool) (predictedScore x : R)
    : R * R :=
  if trueLabel then
    if Rlt_dec predictedScore 1 then
      (divideOrZero (predictedScore - 1) denominatorGradient, divideOrZero (denominator - x) denominatorHessian)
    else (0, 1)
  else
    if Rgt_dec predictedScore 0 then
      (divideOrZero predictedScore denominatorGradient, divideOrZero (denominator - x) denominatorHessian)
    else (0, 1).

(** loss_non_decomposable_squared_hinge.cpp, lines 157-185. *)
Definition hingeOffDiagonal (denominatorHessian : R) (trueLabel : bool) (predictedScore gradient : R) (trueLabel2 : bool)
    (predictedScore2 : R) : R :=
  if isEqualToZero gradient then 0
  else
    let numerator := if trueLabel2 then if Rlt_dec predictedScore2 1 then predictedScore2 - 1 else 0
                     else if Rgt_dec predictedScore2 0 then predictedScore2 else 0 in
    let numerator := if trueLabel then numerator * - (predictedScore - 1) else numerator * - predictedScore in
    divideOrZero numerator denominatorHessian.

(** loss_non_decomposable_squared_hinge.cpp, lines 8-81. *)
Definition updateDecomposableSquaredHingeND (scores : list R) (labels : list bool) (gradients hessians : list R)
    : option (list R * list R) :=
  let* (gradients, denominator) := storeTerms hingeTerm scores labels gradients in
  writeDecomposable (hingeStatistics denominator (sqrt denominator) (pow15 denominator)) scores labels gradients hessians.

(** loss_non_decomposable_squared_hinge.cpp, lines 83-197. *)
Definition updateSquaredHingeND (scores : list R) (labels : list bool) (gradients hessians : list R)
    : option (list R * list R) :=
  let* (gradients, denominator) := storeTerms hingeTerm scores labels gradients in
  writeNonDecomposable (hingeStatistics denominator (sqrt denominator) (pow15 denominator))
    (hingeOffDiagonal (pow15 denominator)) scores labels gradients hessians.

(** loss_non_decomposable_squared_hinge.cpp, lines 199-225. *)
Definition evaluateSquaredHingeND (scores : list R) (labels : list bool) : option R :=
  let* sumOfSquares := forN (length labels) 0 (fun i sumOfSquares =>
    let* predictedScore := aget scores i in
    let* trueLabel := aget labels i in
    Some (if trueLabel then
            if Rlt_dec predictedScore 1 then sumOfSquares + (1 - predictedScore) * (1 - predictedScore) else sumOfSquares
          else if Rgt_dec predictedScore 0 then sumOfSquares + predictedScore * predictedScore else sumOfSquares)) 0 in
  Some (sqrt sumOfSquares).

(** loss_non_decomposable_squared_error.cpp, lines 15-59. [toBool]: the implicit conversion of the ground truth. *)
Definition updateDecomposableSquaredErrorND {T} (toBool : T -> bool) (scores : list R) (truth : list T)
    (gradients hessians : list R) : option (list R * list R) :=
  let expectedScore t := if toBool t then 1 else -1 in
  let* (gradients, denominator) := storeTerms (fun groundTruth predictedScore =>
    predictedScore * predictedScore + -2 * expectedScore groundTruth * predictedScore + 1) scores truth gradients in
  writeDecomposable (fun groundTruth predictedScore x =>
    (divideOrZero (predictedScore - expectedScore groundTruth) (sqrt denominator),
     divideOrZero (denominator - x) (pow15 denominator))) scores truth gradients hessians.

(** loss_non_decomposable_squared_error.cpp, lines 61-122. *)
Definition updateSquaredErrorND {T} (groundTruthConversionFunction : T -> R) (scores : list R) (truth : list T)
    (gradients hessians : list R) : option (list R * list R) :=
  let* (gradients, denominator) := storeTerms (fun groundTruth predictedScore =>
    let expectedScore := groundTruthConversionFunction groundTruth in
    predictedScore * predictedScore + -2 * expectedScore * predictedScore + 1) scores truth gradients in
  writeNonDecomposable (fun groundTruth predictedScore x =>
      let expectedScore := groundTruthConversionFunction groundTruth in
      (divideOrZero (predictedScore - expectedScore) (sqrt denominator), divideOrZero (denominator - x) (pow15 denominator)))
    (fun groundTruth predictedScore _ groundTruth2 predictedScore2 =>
      let expectedScore := groundTruthConversionFunction groundTruth in
      let expectedScore2 := groundTruthConversionFunction groundTruth2 in
      divideOrZero (- (predictedScore - expectedScore) * (predictedScore2 - expectedScore2)) (pow15 denominator))
    scores truth gradients hessians.

(** loss_non_decomposable_squared_error.cpp, lines 124-141. *)
Definition evaluateSquaredErrorND {T} (toBool : T -> bool) (scores : list R) (truth : list T) : option R :=
  let* sumOfSquares := forN (length truth) 0 (fun i sumOfSquares =>
    let* predictedScore := aget scores i in
    let* groundTruth := aget truth i in
    let expectedScore := if toBool groundTruth then 1 else -1 in
    let difference := expectedScore - predictedScore in
    Some (sumOfSquares + difference * difference)) 0 in
  Some (sqrt sumOfSquares).

(** loss_non_decomposable_squared_error.cpp, lines 143-149. *)
Definition binaryConversionFunction (groundTruth : bool) : R := if groundTruth then 1 else -1.
(** See above (loss_non_decomposable_squared_error.cpp, lines 143-149). *)
Definition scoreConversionFunction (groundTruth : R) : R := groundTruth.

(** The implicit conversion of a value of type [float32] into a value of type [bool]
    (loss_non_decomposable_squared_error.cpp, lines 29, 46 and 133). *)
Definition floatToBool (x : R) : bool := if Req_EM_T x 0 then false else true.
