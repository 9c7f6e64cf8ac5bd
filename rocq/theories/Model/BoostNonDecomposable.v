(** Model of the evaluation of rules by boosting algorithms with non-decomposable loss functions. Paths are relative to
    cpp/subprojects/boosting/src/mlrl/boosting unless stated otherwise. Values of type [float64] are rational numbers; there is
    no rounding and no overflow. *)
From Coq Require Import QArith Qabs Reals Qreals List Bool Arith.
From Verif Require Import Lib.Arr Model.BoostEvaluation.
Import ListNotations.
Open Scope Q_scope.

(** include/mlrl/boosting/util/math.hpp, lines 16-18. *)
Definition triangularNumber (n : nat) : nat := (n * (n + 1) / 2)%nat.

(** lines 30-39 and 78-87. *)
Definition l1Norm (values : list Q) (n : nat) : option Q :=
  forN n 0 (fun i result => let* value := aget values i in Some (result + Qabs value)) 0.
(** See above (include/mlrl/boosting/util/math.hpp, lines 30-39 and 78-87). *)
Definition l2NormPow (values : list Q) (n : nat) : option Q :=
  forN n 0 (fun i result => let* value := aget values i in Some (result + value * value)) 0.

(** ** External libraries *)

(** The routine DDOT of the BLAS library: the dot product of two vectors (util/blas.cpp, lines 8-13). *)
Definition ddot (x y : list Q) (n : nat) : option Q :=
  forN n 0 (fun i result => let* a := aget x i in let* b := aget y i in Some (result + a * b)) 0.

(** The routine DSPMV of the BLAS library: the product of a symmetric matrix, whose upper triangle is supplied in packed form,
    and a vector (util/blas.cpp, lines 15-26). *)
Definition dspmv (a x : list Q) (n : nat) : option (list Q) :=
  forN n 0 (fun r output =>
    let* value := forN n 0 (fun c result =>
      let* h := aget a (triangularNumber (Nat.max r c) + Nat.min r c) in
      let* b := aget x c in
      Some (result + h * b)) 0 in
    Some (output ++ [value])) [].

(** The routine DSYSV of the LAPACK library (util/lapack.cpp, lines 34-48) is a parameter of the following functions. It is given
    a number of equations, a matrix of coefficients in column-major order, of which only the upper triangle is used, and a
    vector of ordinates. [None] if it reports an error, in which case an exception is thrown. *)
Notation solver := (nat -> list Q -> list Q -> option (list Q)).

(** ** Systems of equations *)

(** rule_evaluation/rule_evaluation_non_decomposable_complete_common.hpp, lines 21-32. *)
Definition copyCoefficients (hessians coefficients : list Q) (n : nat) : option (list Q) :=
  let* (coefficients, _) := forN n 0 (fun c st =>
    forN (c + 1) 0 (fun r '(coefficients, k) =>
      let* h := aget hessians k in
      let* coefficients := aset coefficients (c * n + r) h in
      Some (coefficients, (k + 1)%nat)) st) (coefficients, 0%nat) in
  Some coefficients.

(** rule_evaluation/rule_evaluation_non_decomposable_partial_common.hpp, lines 21-32. *)
Definition copyCoefficientsOf (hessians : list Q) (indices : list nat) (coefficients : list Q) (n : nat) : option (list Q) :=
  forN n 0 (fun c coefficients =>
    let* column := aget indices c in
    forN (c + 1) 0 (fun r coefficients =>
      let* row := aget indices r in
      let* h := aget hessians (triangularNumber column + row) in
      aset coefficients (c * n + r) h) coefficients) coefficients.

(** rule_evaluation_non_decomposable_complete_common.hpp, lines 41-48. *)
Definition addL2RegularizationWeight (coefficients : list Q) (n : nat) (l2 : Q) : option (list Q) :=
  if gtb l2 0 then
    forN n 0 (fun i coefficients =>
      let* a := aget coefficients (i * n + i) in aset coefficients (i * n + i) (a + l2)) coefficients
  else Some coefficients.

(** lines 58-63. *)
Definition copyOrdinates (gradients : list Q) (n : nat) : option (list Q) :=
  forN n 0 (fun i ordinates => let* g := aget gradients i in Some (ordinates ++ [- g])) [].

(** lines 72-80. *)
Definition addL1RegularizationWeight (ordinates : list Q) (n : nat) (l1 : Q) : option (list Q) :=
  if gtb l1 0 then
    forN n 0 (fun i ordinates =>
      let* gradient := aget ordinates i in
      aset ordinates i (gradient + getL1RegularizationWeight gradient l1)) ordinates
  else Some ordinates.

(** lines 96-102. *)
Definition calculateOverallQuality (values gradients hessians : list Q) (n : nat) : option Q :=
  let* tmp := dspmv hessians values n in
  let* a := ddot values gradients n in
  let* b := ddot values tmp n in
  Some (a + (1 # 2) * b).

(** lines 113-129. *)
Definition calculateRegularizationTerm (values : list Q) (n : nat) (l1 l2 : Q) : option Q :=
  let* term1 := if gtb l1 0 then let* norm := l1Norm values n in Some (l1 * norm) else Some 0 in
  if gtb l2 0 then let* norm := l2NormPow values n in Some (term1 + (1 # 2) * l2 * norm) else Some term1.

(** ** Rule evaluation
    [tmp]: the previous content of the array that is used for the coefficients. *)

(** lines 178-206. *)
Definition evaluateCompleteND (dsysv : solver) (l1 l2 : Q) (tmp : list Q) (indices : list nat) (gradients hessians : list Q)
    : option scores :=
  let n := length indices in
  let* coefficients := copyCoefficients hessians tmp n in
  let* coefficients := addL2RegularizationWeight coefficients n l2 in
  let* ordinates := copyOrdinates gradients n in
  let* ordinates := addL1RegularizationWeight ordinates n l1 in
  let* values := dsysv n coefficients ordinates in
  let* quality := calculateOverallQuality values gradients hessians n in
  let* term := calculateRegularizationTerm values n l1 l2 in
  Some (mkScores indices values (quality + term)).

(** The gradients and the Hessians on the diagonal (include/mlrl/boosting/iterator/iterator_diagonal.hpp, lines 65-67). *)
Definition diagonal (gradients hessians : list Q) : option (list tuple) :=
  forN (length gradients) 0 (fun i result =>
    let* g := aget gradients i in
    let* h := aget hessians (triangularNumber (i + 1) - 1) in
    Some (result ++ [(g, h)])) [].

(** The evaluation of the outputs at the given positions. [indices]: the indices of these outputs.
    rule_evaluation/rule_evaluation_non_decomposable_partial_fixed.cpp, lines 82-111, and
    rule_evaluation/rule_evaluation_non_decomposable_partial_dynamic.cpp, lines 94-96 and 100-122. *)
Definition evaluatePositions (dsysv : solver) (l1 l2 : Q) (tmp : list Q) (outputIndices positions : list nat)
    (gradients hessians : list Q) : option scores :=
  let n := length positions in
  let* (indices, ordinates) := forL positions (fun position '(indices, ordinates) =>
    let* index := aget outputIndices position in
    let* g := aget gradients position in
    Some (indices ++ [index], ordinates ++ [- g])) ([], []) in
  let* ordinates := addL1RegularizationWeight ordinates n l1 in
  let* coefficients := copyCoefficientsOf hessians indices tmp n in
  let* coefficients := addL2RegularizationWeight coefficients n l2 in
  let* values := dsysv n coefficients ordinates in
  let* quality := calculateOverallQuality values gradients hessians n in
  let* term := calculateRegularizationTerm values n l1 l2 in
  Some (mkScores indices values (quality + term)).

(** rule_evaluation/rule_evaluation_non_decomposable_partial_fixed.cpp, lines 66-112. [sorted]: the outcome of sorting
    [outputWiseScores] (rule_evaluation_non_decomposable_partial_fixed_common.hpp, lines 24-38). *)
Definition evaluateFixedND (dsysv : solver) (l1 l2 : Q) (tmp : list Q) (numPredictions : nat) (indices : list nat)
    (gradients hessians : list Q) (sorted : list (nat * Q)) : option scores :=
  let* positions := forN numPredictions 0 (fun i positions =>
    let* (index, _) := aget sorted i in Some (positions ++ [index])) [] in
  evaluatePositions dsysv l1 l2 tmp indices positions gradients hessians.

(** rule_evaluation/rule_evaluation_non_decomposable_partial_dynamic.cpp, lines 65-123. [getMinAndMaxScore] corresponds to
    rule_evaluation_non_decomposable_partial_dynamic_common.hpp, lines 26-51. *)
Definition evaluateDynamicND (dsysv : solver) (l1 l2 threshold exponent : Q) (tmp : list Q) (indices : list nat)
    (gradients hessians : list Q) : option scores :=
  let threshold_ := 1 - threshold in
  let* statistics := diagonal gradients hessians in
  let* (minAbsScore, maxAbsScore) := getMinAndMaxScore l1 l2 statistics in
  let limit := calculateThreshold minAbsScore maxAbsScore threshold_ exponent in
  let* positions := forN (length statistics) 0 (fun i positions =>
    let* t := aget statistics i in
    let score := calculateOutputWiseScore l1 l2 t in
    Some (if Rge_dec (calculateWeightedScore score minAbsScore exponent) limit then positions ++ [i] else positions)) [] in
  evaluatePositions dsysv l1 l2 tmp indices positions gradients hessians.
