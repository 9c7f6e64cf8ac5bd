(** Properties of the conversion of non-decomposable statistics. *)
From Coq Require Import Reals List Bool Arith Lia Lra Permutation.
From Verif Require Import Lib.Arr Model.Losses Model.BoostStatistics Model.Conversion Spec.Losses Spec.BoostStatistics Spec.Conversion.
From Verif Require Import Proofs.Conversion.
Import ListNotations.
Open Scope R_scope.

(** ** C137: false for regression problems; full statement: the gradients and the diagonals of Hessian matrices do not depend on
    whether and when statistics are converted, and they are those of the loss function at the scores that result from the rules that
    have been applied and not been reverted. *)

(** Missing: rules that are applied after switching. Switching converts the statistics, without changing them, for any loss function
    and however examples are assigned to threads. *)
Theorem C137_switch_partial : forall n m s order memory e, triangles n m (ndRows s) -> Permutation order (seq 0 n) -> matrix n m memory ->
    exists p, switchRuleEvaluation m e order memory (mkProvider (Some s) None) = Some p /\ nonDecomposableStatistics p = None /\
      currentScores p = Some (ndScores s) /\ currentEvaluation p = Some e /\
      forall i j, (i < n)%nat -> (j < m)%nat ->
        currentStatistics p i j = Some (nth j (fst (nth i (ndRows s) ([], []))) 0, nth (j * (j + 1) / 2 + j) (snd (nth i (ndRows s) ([], []))) 0).
Proof. exact switch_preserves. Qed.
Print Assumptions C137_switch_partial.

Example C137_switch_partial_example :
  triangles 2 2 [([1; 2], [3; 4; 5]); ([6; 7], [8; 9; 10])] /\ Permutation [1%nat; 0%nat] (seq 0 2) /\ matrix 2 2 [[(0, 0); (0, 0)]; [(0, 0); (0, 0)]] /\
  switchRuleEvaluation 2 PruningRuleEvaluation [1%nat; 0%nat] [[(0, 0); (0, 0)]; [(0, 0); (0, 0)]]
    (mkProvider (Some (mkNd [[1; 1]; [2; 2]] [([1; 2], [3; 4; 5]); ([6; 7], [8; 9; 10])] DefaultRuleEvaluation)) None) =
    Some (mkProvider None (Some (mkD [[1; 1]; [2; 2]] [[(1, 3); (2, 5)]; [(6, 8); (7, 10)]] PruningRuleEvaluation))).
Proof. split; [repeat constructor|]. split; [apply perm_swap|]. split; [repeat constructor|reflexivity]. Qed.

(** Missing: regression problems. The logistic loss, for any implementation of the exponential function. [p] results from any history,
    [q] from the same history without switching. *)
Theorem C137_logistic_partial : forall e n m truth order memory es, matrix n m truth -> Permutation order (seq 0 n) -> triangles n m memory ->
    Forall (valid_event n m) es ->
    exists p0 p q scores, createProvider (logisticLoss e) truth m order memory = Some p0 /\
      forL es (handle (logisticLoss e) truth m) p0 = Some p /\
      forL (map Change (changes es)) (handle (logisticLoss e) truth m) p0 = Some q /\
      forL (changes es) denseChange (repeat (repeat 0 m) n) = Some scores /\
      currentScores p = Some scores /\ currentScores q = Some scores /\ currentEvaluation p = Some (requested es DefaultRuleEvaluation) /\
      forall i j, (i < n)%nat -> (j < m)%nat -> exists g h, currentStatistics p i j = Some (g, h) /\ currentStatistics q i j = Some (g, h).
Proof. exact conversion_logistic. Qed.
Print Assumptions C137_logistic_partial.

Example C137_logistic_partial_example :
  let es := [Change (Apply 1 (CompletePrediction [1; 2])); SwitchToPruning [1%nat; 0%nat] [[(0, 0); (0, 0)]; [(0, 0); (0, 0)]];
    Change (Apply 0 (PartialPrediction [1%nat] [3])); SwitchToRegular [0%nat; 1%nat] [[(0, 0); (0, 0)]; [(0, 0); (0, 0)]]] in
  matrix 2 2 [[true; false]; [false; false]] /\ Permutation [1%nat; 0%nat] (seq 0 2) /\ triangles 2 2 [([0; 0], [0; 0; 0]); ([0; 0], [0; 0; 0])] /\
  Forall (valid_event 2 2) es /\ changes es = [Apply 1 (CompletePrediction [1; 2]); Apply 0 (PartialPrediction [1%nat] [3])] /\
  requested es DefaultRuleEvaluation = RegularRuleEvaluation.
Proof.
  intros es. split; [repeat constructor|]. split; [apply perm_swap|]. split; [repeat constructor|]. split; [|split; reflexivity].
  repeat constructor; simpl; try lia; apply perm_swap.
Qed.

(** Missing: regression problems. The squared hinge loss. *)
Theorem C137_squared_hinge_partial : forall n m truth order memory es, matrix n m truth -> Permutation order (seq 0 n) -> triangles n m memory ->
    Forall (valid_event n m) es ->
    exists p0 p q scores, createProvider squaredHingeLoss truth m order memory = Some p0 /\
      forL es (handle squaredHingeLoss truth m) p0 = Some p /\
      forL (map Change (changes es)) (handle squaredHingeLoss truth m) p0 = Some q /\
      forL (changes es) denseChange (repeat (repeat 0 m) n) = Some scores /\
      currentScores p = Some scores /\ currentScores q = Some scores /\ currentEvaluation p = Some (requested es DefaultRuleEvaluation) /\
      forall i j, (i < n)%nat -> (j < m)%nat -> exists g h, currentStatistics p i j = Some (g, h) /\ currentStatistics q i j = Some (g, h).
Proof. exact conversion_squared_hinge. Qed.
Print Assumptions C137_squared_hinge_partial.

Example C137_squared_hinge_partial_example :
  let es := [SwitchToRegular [1%nat; 0%nat] [[(0, 0); (0, 0)]; [(0, 0); (0, 0)]]; Change (Revert 0 (PartialPrediction [1%nat] [3]))] in
  matrix 2 2 [[true; false]; [false; false]] /\ triangles 2 2 [([0; 0], [0; 0; 0]); ([0; 0], [0; 0; 0])] /\
  Forall (valid_event 2 2) es /\ changes es <> [] /\ requested es DefaultRuleEvaluation = RegularRuleEvaluation.
Proof.
  intros es. split; [repeat constructor|]. split; [repeat constructor|]. split; [|split; [discriminate|reflexivity]].
  repeat constructor; simpl; try lia; apply perm_swap.
Qed.

(** Missing: regression problems. The squared error loss of classification problems. *)
Theorem C137_squared_error_partial : forall n m truth order memory es, matrix n m truth -> Permutation order (seq 0 n) -> triangles n m memory ->
    Forall (valid_event n m) es ->
    exists p0 p q scores, createProvider squaredErrorLoss truth m order memory = Some p0 /\
      forL es (handle squaredErrorLoss truth m) p0 = Some p /\
      forL (map Change (changes es)) (handle squaredErrorLoss truth m) p0 = Some q /\
      forL (changes es) denseChange (repeat (repeat 0 m) n) = Some scores /\
      currentScores p = Some scores /\ currentScores q = Some scores /\ currentEvaluation p = Some (requested es DefaultRuleEvaluation) /\
      forall i j, (i < n)%nat -> (j < m)%nat -> exists g h, currentStatistics p i j = Some (g, h) /\ currentStatistics q i j = Some (g, h).
Proof. exact conversion_squared_error. Qed.
Print Assumptions C137_squared_error_partial.

Example C137_squared_error_partial_example : exists p0 p q,
  createProvider squaredErrorLoss [[true]] 1 [0%nat] [([0], [0])] = Some p0 /\
  forL [SwitchToRegular [0%nat] [[(0, 0)]]; Change (Apply 0 (CompletePrediction [3]))] (handle squaredErrorLoss [[true]] 1) p0 = Some p /\
  forL [Change (Apply 0 (CompletePrediction [3]))] (handle squaredErrorLoss [[true]] 1) p0 = Some q /\
  nonDecomposableStatistics p = None /\ decomposableStatistics q = None.
Proof. do 3 eexists. split; [reflexivity|]. split; [reflexivity|]. split; [reflexivity|]. split; reflexivity. Qed.

(** Missing: other loss functions. The statistics are the derivatives of the logistic loss at the scores that are predicted by the
    rules, whether statistics have been converted or not. *)
Theorem C137_derivatives_partial : forall e, (forall x, x <= 0 -> e x = exp x) -> forall n m truth order memory es, matrix n m truth -> Permutation order (seq 0 n) ->
    triangles n m memory -> Forall (valid_event n m) es ->
    exists p0 p scores, createProvider (logisticLoss e) truth m order memory = Some p0 /\
      forL es (handle (logisticLoss e) truth m) p0 = Some p /\ currentScores p = Some scores /\ matrix n m scores /\
      forall i, (i < n)%nat -> let f s := ln (1 + sumR m (fun k => exp (- expected (nth k (nth i truth []) true) * nth k s 0))) in
        forall j, (j < m)%nat -> nth j (nth i scores []) 0 = effects i j (changes es) /\
          exists g h, currentStatistics p i j = Some (g, h) /\ partialDerivative f (nth i scores []) j g /\
            partialDerivative2 f (nth i scores []) j j h.
Proof. exact logistic_derivatives. Qed.
Print Assumptions C137_derivatives_partial.

Example C137_derivatives_partial_example : (forall x, x <= 0 -> exp x = exp x) /\
  effects 1 0 (changes [Change (Apply 1 (CompletePrediction [1; 2])); SwitchToRegular [0%nat; 1%nat] [[(0, 0); (0, 0)]; [(0, 0); (0, 0)]];
    Change (Apply 1 (PartialPrediction [0%nat] [3])); Change (Revert 1 (CompletePrediction [1; 2]))]) = 3.
Proof. split; [auto|]. unfold effects, effect. simpl. lra. Qed.

(** Regression problems: the gradient is five times as large if statistics have not been converted. *)
Theorem C137_regression_refuted : exists truth n m order memory es p0 p q g h h', matrix n m truth /\ Permutation order (seq 0 n) /\ triangles n m memory /\
    Forall (valid_event n m) es /\ createProvider squaredErrorRegressionLoss truth m order memory = Some p0 /\
    forL es (handle squaredErrorRegressionLoss truth m) p0 = Some p /\
    forL (map Change (changes es)) (handle squaredErrorRegressionLoss truth m) p0 = Some q /\
    currentStatistics p 0 0 = Some (g, h) /\ currentStatistics q 0 0 = Some (5 * g, h') /\ g <> 0.
Proof. exact regression_refuted_example. Qed.
Print Assumptions C137_regression_refuted.

(** A single example and output, whose ground truth is not one: a rule that predicts zero changes the gradient if the statistics
    have been converted. *)
Theorem C137_regression_always_refuted : forall t, t <> 1 -> exists p0 p q g g' h h',
    createProvider squaredErrorRegressionLoss [[t]] 1 [0%nat] [([0], [0])] = Some p0 /\
    forL [SwitchToRegular [0%nat] [[(0, 0)]]; Change (Apply 0 (CompletePrediction [0]))] (handle squaredErrorRegressionLoss [[t]] 1) p0 = Some p /\
    forL [Change (Apply 0 (CompletePrediction [0]))] (handle squaredErrorRegressionLoss [[t]] 1) p0 = Some q /\
    currentStatistics p 0 0 = Some (g, h) /\ currentStatistics q 0 0 = Some (g', h') /\ g' = - t /\ g <> g'.
Proof. exact regression_refuted. Qed.
Print Assumptions C137_regression_always_refuted.

Example C137_regression_always_refuted_example : 5 <> 1.
Proof. lra. Qed.
