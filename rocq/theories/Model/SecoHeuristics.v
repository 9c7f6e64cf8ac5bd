(** Model of the heuristics used by separate-and-conquer algorithms. Paths are relative to cpp/subprojects/seco/src/mlrl/seco
    unless stated otherwise. Values of type [float64] are rational numbers; there is no rounding and no overflow. *)
From Coq Require Import QArith List Bool.
Import ListNotations.
Open Scope Q_scope.

(** A floating point division. The result is not finite ([None]) if the denominator is zero. *)
Definition fdiv (numerator denominator : Q) : option Q :=
  if Qeq_bool denominator 0 then None else Some (numerator / denominator).

Local Notation "'let*' x ':=' e 'in' k" := (match e with Some x => k | None => None end)
  (at level 200, x pattern, right associativity).

Definition gtb (a b : Q) : bool := negb (Qle_bool a b).

(** common/include/mlrl/common/util/math.hpp, lines 18-22. *)
Definition divideOrZero (numerator denominator : Q) : Q :=
  match fdiv numerator denominator with Some result => result | None => 0 end.

(** heuristics/heuristic_common.hpp, lines 11-15. *)
Definition precision (cin cip crn crp : Q) : Q :=
  let numCoveredCorrect := cin + crp in
  let numCovered := numCoveredCorrect + cip + crn in
  divideOrZero numCoveredCorrect numCovered.

(** lines 17-21. *)
Definition recall (cin crp uin urp : Q) : Q :=
  let numCoveredEqual := cin + crp in
  let numEqual := numCoveredEqual + uin + urp in
  divideOrZero numCoveredEqual numEqual.

(** lines 23-37. *)
Definition wra (cin cip crn crp uin uip urn urp : Q) : option Q :=
  let numCoveredEqual := cin + crp in
  let numUncoveredEqual := uin + urp in
  let numEqual := numUncoveredEqual + numCoveredEqual in
  let numCovered := numCoveredEqual + cip + crn in
  let numUncovered := numUncoveredEqual + uip + urn in
  let numTotal := numCovered + numUncovered in
  if gtb numCovered 0 && gtb numTotal 0 then
    let* a := fdiv numCovered numTotal in
    let* b := fdiv numCoveredEqual numCovered in
    let* c := fdiv numEqual numTotal in
    Some (a * (b - c))
  else Some 0.

(** A parameter that may be infinite. *)
Inductive parameter := Finite (q : Q) | Infinite.

Inductive heuristic := Accuracy | Precision | Recall | Laplace | Wra | FMeasure (beta : parameter) | MEstimate (m : parameter).

(** heuristics/heuristic_accuracy.cpp, lines 14-21. *)
Definition accuracy (cin cip crn crp uin uip urn urp : Q) : Q :=
  let numCoveredCorrect := cin + crp in
  let numUncoveredCorrect := uin + uip in
  let numCorrect := numCoveredCorrect + numUncoveredCorrect in
  let numTotal := numCorrect + cip + crn + urn + urp in
  divideOrZero numCorrect numTotal.

(** heuristics/heuristic_laplace.cpp, lines 11-16. *)
Definition laplace (cin cip crn crp : Q) : option Q :=
  let numCoveredCorrect := cin + crp in
  let numCovered := numCoveredCorrect + cip + crn in
  fdiv (numCoveredCorrect + 1) (numCovered + 2).

(** heuristics/heuristic_f_measure.cpp, lines 24-42. *)
Definition fMeasure (beta : parameter) (cin cip crn crp uin uip urn urp : Q) : Q :=
  match beta with
  | Infinite => recall cin crp uin urp
  | Finite beta =>
      if gtb beta 0 then
        let betaPow := beta * beta in
        let numCoveredEqual := cin + crp in
        let numUncoveredCorrect := uin + urp in
        let numCoveredIncorrect := cip + crn in
        let numerator := (1 + betaPow) * numCoveredEqual in
        let denominator := numerator + (betaPow * numUncoveredCorrect) + numCoveredIncorrect in
        divideOrZero numerator denominator
      else precision cin cip crn crp
  end.

(** heuristics/heuristic_m_estimate.cpp, lines 24-46. *)
Definition mEstimate (m : parameter) (cin cip crn crp uin uip urn urp : Q) : option Q :=
  match m with
  | Infinite => wra cin cip crn crp uin uip urn urp
  | Finite m =>
      if gtb m 0 then
        let numCoveredEqual := cin + crp in
        let numCovered := numCoveredEqual + cip + crn in
        let numUncoveredEqual := uin + urp in
        let numEqual := numCoveredEqual + numUncoveredEqual in
        let numTotal := numCovered + numUncoveredEqual + uip + urn in
        if gtb numTotal 0 then
          let* prior := fdiv numEqual numTotal in
          fdiv (numCoveredEqual + (m * prior)) (numCovered + m)
        else Some 0
      else Some (precision cin cip crn crp)
  end.

(** [evaluateConfusionMatrix]; heuristics/heuristic_precision.cpp, lines 14-17, heuristics/heuristic_recall.cpp, lines
    14-17, and heuristics/heuristic_wra.cpp, lines 13-16. *)
Definition evaluate (h : heuristic) (cin cip crn crp uin uip urn urp : Q) : option Q :=
  match h with
  | Accuracy => Some (accuracy cin cip crn crp uin uip urn urp)
  | Precision => Some (precision cin cip crn crp)
  | Recall => Some (recall cin crp uin urp)
  | Laplace => laplace cin cip crn crp
  | Wra => wra cin cip crn crp uin uip urn urp
  | FMeasure beta => Some (fMeasure beta cin cip crn crp uin uip urn urp)
  | MEstimate m => mEstimate m cin cip crn crp uin uip urn urp
  end.
