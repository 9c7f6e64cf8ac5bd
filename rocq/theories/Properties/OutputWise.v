(** Properties of label-wise predictions. *)
From Coq Require Import Reals List Bool Arith Sorted Lia Lra.
From Verif Require Import Lib.Arr Model.Losses Model.OutputWise Spec.Losses Proofs.OutputWise.
Import ListNotations.
Open Scope R_scope.

(** ** C102: Label-wise predictions minimise the loss *)
(** No other labels than the predicted ones result in a smaller loss. [memory] is the initial content of the prediction. *)
Theorem C102_minimal_loss : forall e : R -> R, (forall x, x <= 0 -> e x = exp x) ->
  forall scores memory labels, length memory = length scores -> length labels = length scores ->
  let minimal evaluate threshold := exists prediction a b,
    predictOutputWise (discretizeByScore threshold) scores memory = Some prediction /\
    evaluate prediction = Some a /\ evaluate labels = Some b /\ a <= b in
  minimal (fun y => evaluateMean (evaluateLogistic e) scores y (length y)) defaultPredictionLogistic /\
  minimal (fun y => evaluateMean evaluateSquaredHinge scores y (length y)) defaultPredictionSquaredHinge /\
  minimal (fun y => evaluateMean evaluateSquaredErrorClassification scores y (length y)) defaultPredictionSquaredError /\
  minimal (fun y => evaluateLogisticND e scores y) defaultPredictionLogistic /\
  minimal (fun y => evaluateSquaredHingeND scores y) defaultPredictionSquaredHinge /\
  minimal (fun y => evaluateSquaredErrorND (fun label => label) scores y) defaultPredictionSquaredError.
Proof. exact minimal_loss. Qed.
Print Assumptions C102_minimal_loss.

Example C102_minimal_loss_example :
  predictOutputWise (discretizeByScore defaultPredictionSquaredHinge) [1 / 4; 3 / 4] [true; false] = Some [false; true].
Proof.
  unfold predictOutputWise, discretizeByScore, defaultPredictionSquaredHinge. simpl.
  destruct (Rgt_dec (1 / 4) (1 / 2)); [lra|]. simpl. destruct (Rgt_dec (3 / 4) (1 / 2)); [reflexivity|lra].
Qed.

(** A label is predicted as relevant if and only if this results in a smaller loss than predicting it as irrelevant. *)
Theorem C102_strictly_smaller_loss : forall e : R -> R, (forall x, x <= 0 -> e x = exp x) -> forall i x,
  (discretizeByScore defaultPredictionLogistic i x = true <-> evaluateLogistic e true x < evaluateLogistic e false x) /\
  (discretizeByScore defaultPredictionSquaredHinge i x = true <-> evaluateSquaredHinge true x < evaluateSquaredHinge false x) /\
  (discretizeByScore defaultPredictionSquaredError i x = true <->
     evaluateSquaredErrorClassification true x < evaluateSquaredErrorClassification false x).
Proof. exact strictly_smaller_loss. Qed.
Print Assumptions C102_strictly_smaller_loss.

Example C102_strictly_smaller_loss_example : discretizeByScore defaultPredictionSquaredError 0 (1 / 4) = true /\
  evaluateSquaredErrorClassification true (1 / 4) < evaluateSquaredErrorClassification false (1 / 4).
Proof.
  unfold discretizeByScore, defaultPredictionSquaredError, evaluateSquaredErrorClassification, evaluateSquaredErrorRegression.
  split; [destruct (Rgt_dec (1 / 4) 0); [reflexivity|lra]|lra].
Qed.

(** Predictions based on probabilities that are not calibrated are the same as those based on scores. *)
Theorem C102_probabilities_and_scores : forall e : R -> R, (forall x, x <= 0 -> e x = exp x) -> forall labelIndex score,
    discretizeByProbability e (fun _ p => p) labelIndex score = discretizeByScore defaultPredictionLogistic labelIndex score.
Proof. exact probabilities_and_scores. Qed.
Print Assumptions C102_probabilities_and_scores.

Example C102_probabilities_and_scores_example : discretizeByScore defaultPredictionLogistic 0 1 = true.
Proof. unfold discretizeByScore, defaultPredictionLogistic. destruct (Rgt_dec 1 0); [reflexivity|lra]. Qed.

(** Predictions in dense and sparse format agree. *)
Theorem C102_sparse_and_dense_predictions : forall (discretizeScore : nat -> R -> bool) scores memory, length memory = length scores ->
    exists prediction row, predictOutputWise discretizeScore scores memory = Some prediction /\
      predictOutputWiseSparse discretizeScore scores = Some row /\
      length prediction = length scores /\ StronglySorted lt row /\
      (forall i, (i < length scores)%nat -> nth i prediction true = discretizeScore i (nth i scores 0)) /\
      (forall i, In i row <-> (i < length scores)%nat /\ nth i prediction true = true).
Proof. exact sparse_and_dense_predictions. Qed.
Print Assumptions C102_sparse_and_dense_predictions.

Example C102_sparse_and_dense_predictions_example :
  predictOutputWiseSparse (fun i _ => (i =? 1)%nat) [1 / 4; 3 / 4] = Some [1%nat] /\
  predictOutputWise (fun i _ => (i =? 1)%nat) [1 / 4; 3 / 4] [true; true] = Some [false; true].
Proof. split; reflexivity. Qed.
