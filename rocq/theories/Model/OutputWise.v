(** Model of the label-wise prediction of binary labels by boosting algorithms. Paths are relative to
    cpp/subprojects/boosting/src/mlrl/boosting unless stated otherwise. Values of type [float64] are real numbers. *)
From Coq Require Import Reals List Bool Arith.
From Verif Require Import Lib.Arr Model.Losses.
Import ListNotations.
Open Scope R_scope.

(** prediction/discretization_function_score.cpp, lines 21-23. *)
Definition discretizeByScore (threshold : R) (labelIndex : nat) (score : R) : bool :=
  if Rgt_dec score threshold then true else false.

(** prediction/probability_function_logistic.cpp, lines 26-29. [calibrate]: [calibrateMarginalProbability]. *)
Definition transformScoreIntoMarginalProbability (e : R -> R) (calibrate : nat -> R -> R) (labelIndex : nat) (score : R) : R :=
  calibrate labelIndex (logisticFunction e score).

(** prediction/discretization_function_probability.cpp, lines 25-29. *)
Definition discretizeByProbability (e : R -> R) (calibrate : nat -> R -> R) (labelIndex : nat) (score : R) : bool :=
  let marginalProbability := transformScoreIntoMarginalProbability e calibrate labelIndex score in
  if Rgt_dec marginalProbability (1 / 2) then true else false.

(** losses/loss_decomposable_logistic.cpp, lines 109-111, and losses/loss_non_decomposable_logistic.cpp, lines 344-346. *)
Definition defaultPredictionLogistic : R := 0.
(** losses/loss_decomposable_squared_error.cpp, lines 87-89, and losses/loss_non_decomposable_squared_error.cpp, lines 412-414. *)
Definition defaultPredictionSquaredError : R := 0.
(** losses/loss_decomposable_squared_hinge.cpp, lines 91-93, and losses/loss_non_decomposable_squared_hinge.cpp, lines 373-375. *)
Definition defaultPredictionSquaredHinge : R := 1 / 2.

(** prediction/transformation_binary_output_wise.cpp, lines 9-20. [prediction]: the initial content of the row. *)
Definition predictOutputWise (discretizeScore : nat -> R -> bool) (scores : list R) (prediction : list bool) : option (list bool) :=
  forN (length scores) 0 (fun i prediction =>
    let* score := aget scores i in
    aset prediction i (discretizeScore i score)) prediction.

(** prediction/transformation_binary_output_wise.cpp, lines 22-34: the row is initially empty. *)
Definition predictOutputWiseSparse (discretizeScore : nat -> R -> bool) (scores : list R) : option (list nat) :=
  forN (length scores) 0 (fun i row =>
    let* score := aget scores i in
    Some (if discretizeScore i score then row ++ [i] else row)) [].
