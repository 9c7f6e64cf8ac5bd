(** Properties of the loss on the training data. *)
From Coq Require Import Reals List Bool Arith Lra Lia.
From Verif Require Import Lib.Arr Model.Losses Model.BoostStatistics Model.BoostTraining Spec.BoostStatistics Spec.BoostTraining
  Proofs.BoostTraining.
Import ListNotations.
Open Scope R_scope.

(** ** C132: Rules do not increase the loss on the training data *)

(** Squared error, classification. The loss decreases if the rule predicts a non-zero score. *)
Theorem C132_squared_error_partial : forall truth n m junk l1 l2 weights rules r,
    isMatrix n m truth -> isMatrix n m junk -> 0 <= l1 -> 0 <= l2 -> length weights = n -> Forall (fun w => 0 <= w) weights ->
    Forall (valid_rule false n m) rules -> valid_rule false n m r -> calculated_from weights r -> 0 <= ruleShrinkage r <= 1 ->
    exists before p after,
      train false updateSquaredErrorClassification l1 l2 truth m junk rules = Some before /\
      predictRule l1 l2 (trStatistics before) r = Some p /\
      train false updateSquaredErrorClassification l1 l2 truth m junk (rules ++ [r]) = Some after /\
      trainingLoss evaluateSquaredErrorClassification weights truth (trScores after) <=
        trainingLoss evaluateSquaredErrorClassification weights truth (trScores before) /\
      ((exists l, (l < m)%nat /\ predictedScore p l <> 0) ->
       trainingLoss evaluateSquaredErrorClassification weights truth (trScores after) <
         trainingLoss evaluateSquaredErrorClassification weights truth (trScores before)).
Proof. exact squared_error_training. Qed.
Print Assumptions C132_squared_error_partial.

(* The second example belongs to a holdout set; the rule predicts for the second output only *)
Example C132_squared_error_partial_example :
  let truth := [[true; false]; [false; true]; [true; true]] in let junk := [[(8, 9); (8, 9)]; [(8, 9); (8, 9)]; [(8, 9); (8, 9)]] in let weights := [1; 0; 2] in
  let first := mkRule (EqualWeights 3) [0; 2]%nat (AllOutputs 2) (1 / 2) [0; 1; 2]%nat in
  let r := mkRule (IndividualWeights [1; 5; 2]) [2; 0]%nat (SomeOutputs [1%nat]) (1 / 4) [0; 1; 2]%nat in
  isMatrix 3 2 truth /\ isMatrix 3 2 junk /\ length weights = 3%nat /\ Forall (fun w => 0 <= w) weights /\ Forall (valid_rule false 3 2) [first] /\
  valid_rule false 3 2 r /\ calculated_from weights r /\ 0 <= ruleShrinkage r <= 1 /\
  exists t p, train false updateSquaredErrorClassification 0 1 truth 2 junk [] = Some t /\ predictRule 0 1 (trStatistics t) r = Some p /\ predictedScore p 1 <> 0.
Proof.
  intros truth junk weights first r. split; [split; [reflexivity|repeat constructor]|]. split; [split; [reflexivity|repeat constructor]|].
  split; [reflexivity|]. split; [repeat constructor; lra|].
  assert (V : valid_rule false 3 2 first).
  { unfold valid_rule, first; simpl. repeat split; try discriminate; try (eexists; reflexivity); repeat constructor; simpl; try lia; intuition lia. }
  split; [constructor; [exact V|constructor]|]. split.
  { unfold valid_rule, r; simpl. repeat split; try discriminate; try (eexists; reflexivity); repeat constructor; simpl; try lia; intuition lia. }
  split.
  { split; [repeat constructor; simpl; intuition lia|]. split; [intros i; simpl; intuition lia|].
    intros i Hi. simpl in Hi. destruct Hi as [<- |[<- |[<- |[]]]]; reflexivity. }
  split; [simpl; lra|]. eexists. eexists. split; [reflexivity|]. split; [reflexivity|]. cbn. unfold outputWiseScore, divideOrZero, getL1Weight. cbn.
  repeat match goal with |- context[Req_EM_T ?a ?b] => destruct (Req_EM_T a b); try lra | |- context[Rgt_dec ?a ?b] => destruct (Rgt_dec a b); try lra
    | |- context[Rlt_dec ?a ?b] => destruct (Rlt_dec a b); try lra end.
Qed.

(** Squared hinge loss. The factor of two by which gradients and Hessians are too small is irrelevant. *)
Theorem C132_squared_hinge_partial : forall truth n m junk l1 l2 weights rules r,
    isMatrix n m truth -> isMatrix n m junk -> 0 <= l1 -> 0 <= l2 -> length weights = n -> Forall (fun w => 0 <= w) weights ->
    Forall (valid_rule false n m) rules -> valid_rule false n m r -> calculated_from weights r -> 0 <= ruleShrinkage r <= 1 ->
    exists before p after,
      train false updateSquaredHinge l1 l2 truth m junk rules = Some before /\
      predictRule l1 l2 (trStatistics before) r = Some p /\
      train false updateSquaredHinge l1 l2 truth m junk (rules ++ [r]) = Some after /\
      trainingLoss evaluateSquaredHinge weights truth (trScores after) <=
        trainingLoss evaluateSquaredHinge weights truth (trScores before) /\
      ((exists l, (l < m)%nat /\ predictedScore p l <> 0) ->
       trainingLoss evaluateSquaredHinge weights truth (trScores after) <
         trainingLoss evaluateSquaredHinge weights truth (trScores before)).
Proof. exact squared_hinge_training. Qed.
Print Assumptions C132_squared_hinge_partial.

(* The second example belongs to a holdout set; the rule predicts for the second output only *)
Example C132_squared_hinge_partial_example :
  let truth := [[true; false]; [false; true]; [true; true]] in let junk := [[(8, 9); (8, 9)]; [(8, 9); (8, 9)]; [(8, 9); (8, 9)]] in let weights := [1; 0; 2] in
  let first := mkRule (EqualWeights 3) [0; 2]%nat (AllOutputs 2) (1 / 2) [0; 1; 2]%nat in
  let r := mkRule (IndividualWeights [1; 5; 2]) [2; 0]%nat (SomeOutputs [1%nat]) (1 / 4) [0; 1; 2]%nat in
  isMatrix 3 2 truth /\ isMatrix 3 2 junk /\ length weights = 3%nat /\ Forall (fun w => 0 <= w) weights /\ Forall (valid_rule false 3 2) [first] /\
  valid_rule false 3 2 r /\ calculated_from weights r /\ 0 <= ruleShrinkage r <= 1 /\
  exists t p, train false updateSquaredHinge 0 1 truth 2 junk [] = Some t /\ predictRule 0 1 (trStatistics t) r = Some p /\ predictedScore p 1 <> 0.
Proof.
  intros truth junk weights first r. split; [split; [reflexivity|repeat constructor]|]. split; [split; [reflexivity|repeat constructor]|].
  split; [reflexivity|]. split; [repeat constructor; lra|].
  assert (V : valid_rule false 3 2 first).
  { unfold valid_rule, first; simpl. repeat split; try discriminate; try (eexists; reflexivity); repeat constructor; simpl; try lia; intuition lia. }
  split; [constructor; [exact V|constructor]|]. split.
  { unfold valid_rule, r; simpl. repeat split; try discriminate; try (eexists; reflexivity); repeat constructor; simpl; try lia; intuition lia. }
  split.
  { split; [repeat constructor; simpl; intuition lia|]. split; [intros i; simpl; intuition lia|].
    intros i Hi. simpl in Hi. destruct Hi as [<- |[<- |[<- |[]]]]; reflexivity. }
  split; [simpl; lra|]. eexists. eexists. split; [reflexivity|]. split; [reflexivity|]. cbn. unfold outputWiseScore, divideOrZero, getL1Weight. cbn.
  repeat match goal with |- context[Req_EM_T ?a ?b] => destruct (Req_EM_T a b); try lra | |- context[Rgt_dec ?a ?b] => destruct (Rgt_dec a b); try lra
    | |- context[Rlt_dec ?a ?b] => destruct (Rlt_dec a b); try lra end.
Qed.

(** Squared error, regression, rules that predict for all outputs. *)
Theorem C132_squared_error_regression_partial : forall truth n m junk l1 l2 weights rules r,
    isMatrix n m truth -> isMatrix n m junk -> 0 <= l1 -> 0 <= l2 -> length weights = n -> Forall (fun w => 0 <= w) weights ->
    Forall (valid_rule true n m) rules -> valid_rule true n m r -> calculated_from weights r -> 0 <= ruleShrinkage r <= 1 ->
    exists before p after,
      train true updateSquaredErrorRegression l1 l2 truth m junk rules = Some before /\
      predictRule l1 l2 (trStatistics before) r = Some p /\
      train true updateSquaredErrorRegression l1 l2 truth m junk (rules ++ [r]) = Some after /\
      trainingLoss evaluateSquaredErrorRegression weights truth (trScores after) <=
        trainingLoss evaluateSquaredErrorRegression weights truth (trScores before) /\
      ((exists l, (l < m)%nat /\ predictedScore p l <> 0) ->
       trainingLoss evaluateSquaredErrorRegression weights truth (trScores after) <
         trainingLoss evaluateSquaredErrorRegression weights truth (trScores before)).
Proof. exact squared_error_regression_training. Qed.
Print Assumptions C132_squared_error_regression_partial.

(* The second example belongs to a holdout set *)
Example C132_squared_error_regression_partial_example :
  let truth := [[3; 2]; [0; 1]; [5; 7]] in let junk := [[(8, 9); (8, 9)]; [(8, 9); (8, 9)]; [(8, 9); (8, 9)]] in let weights := [1; 0; 2] in
  let first := mkRule (EqualWeights 3) [0; 2]%nat (AllOutputs 2) (1 / 2) [0; 1; 2]%nat in
  let r := mkRule (IndividualWeights [1; 5; 2]) [2; 0]%nat (AllOutputs 2) (1 / 4) [0; 1; 2]%nat in
  isMatrix 3 2 truth /\ isMatrix 3 2 junk /\ length weights = 3%nat /\ Forall (fun w => 0 <= w) weights /\ Forall (valid_rule true 3 2) [first] /\
  valid_rule true 3 2 r /\ calculated_from weights r /\ 0 <= ruleShrinkage r <= 1 /\
  exists t p, train true updateSquaredErrorRegression 0 1 truth 2 junk [] = Some t /\ predictRule 0 1 (trStatistics t) r = Some p /\ predictedScore p 1 <> 0.
Proof.
  intros truth junk weights first r. split; [split; [reflexivity|repeat constructor]|]. split; [split; [reflexivity|repeat constructor]|].
  split; [reflexivity|]. split; [repeat constructor; lra|].
  assert (V : valid_rule true 3 2 first).
  { unfold valid_rule, first; simpl. repeat split; try discriminate; try (eexists; reflexivity); repeat constructor; simpl; try lia; intuition lia. }
  split; [constructor; [exact V|constructor]|]. split.
  { unfold valid_rule, r; simpl. repeat split; try discriminate; try (eexists; reflexivity); repeat constructor; simpl; try lia; intuition lia. }
  split.
  { split; [repeat constructor; simpl; intuition lia|]. split; [intros i; simpl; intuition lia|].
    intros i Hi. simpl in Hi. destruct Hi as [<- |[<- |[<- |[]]]]; reflexivity. }
  split; [simpl; lra|]. eexists. eexists. split; [reflexivity|]. split; [reflexivity|]. cbn. unfold outputWiseScore, divideOrZero, getL1Weight. cbn.
  repeat match goal with |- context[Req_EM_T ?a ?b] => destruct (Req_EM_T a b); try lra | |- context[Rgt_dec ?a ?b] => destruct (Rgt_dec a b); try lra
    | |- context[Rlt_dec ?a ?b] => destruct (Rlt_dec a b); try lra end.
Qed.

(** Logistic loss, if the L2 regularization weight is large enough. [e]: the exponential function, used for non-positive arguments. *)
Theorem C132_logistic_partial : forall e : R -> R, (forall x, x <= 0 -> e x = exp x) ->
  forall truth n m junk l1 l2 weights rules r,
    isMatrix n m truth -> isMatrix n m junk -> 0 <= l1 -> 0 <= l2 -> length weights = n -> Forall (fun w => 0 <= w) weights ->
    Forall (valid_rule false n m) rules -> valid_rule false n m r -> calculated_from weights r -> 0 <= ruleShrinkage r ->
    ruleShrinkage r * coveredWeight weights r <= 4 * l2 ->
    exists before p after,
      train false (updateLogistic e) l1 l2 truth m junk rules = Some before /\
      predictRule l1 l2 (trStatistics before) r = Some p /\
      train false (updateLogistic e) l1 l2 truth m junk (rules ++ [r]) = Some after /\
      trainingLoss (evaluateLogistic e) weights truth (trScores after) <=
        trainingLoss (evaluateLogistic e) weights truth (trScores before) /\
      ((exists l, (l < m)%nat /\ predictedScore p l <> 0) ->
       trainingLoss (evaluateLogistic e) weights truth (trScores after) <
         trainingLoss (evaluateLogistic e) weights truth (trScores before)).
Proof. exact logistic_training. Qed.
Print Assumptions C132_logistic_partial.

(* The second example belongs to a holdout set; the rule predicts for the second output only *)
Example C132_logistic_partial_example :
  let truth := [[true; false]; [false; true]; [true; true]] in let junk := [[(8, 9); (8, 9)]; [(8, 9); (8, 9)]; [(8, 9); (8, 9)]] in let weights := [1; 0; 2] in
  let first := mkRule (EqualWeights 3) [0; 2]%nat (AllOutputs 2) (1 / 2) [0; 1; 2]%nat in
  let r := mkRule (IndividualWeights [1; 5; 2]) [2; 0]%nat (SomeOutputs [1%nat]) (1 / 4) [0; 1; 2]%nat in
  isMatrix 3 2 truth /\ isMatrix 3 2 junk /\ length weights = 3%nat /\ Forall (fun w => 0 <= w) weights /\ Forall (valid_rule false 3 2) [first] /\
  valid_rule false 3 2 r /\ calculated_from weights r /\ 0 <= ruleShrinkage r <= 1 /\ ruleShrinkage r * coveredWeight weights r <= 4 * 1 /\
  exists t p, train false (updateLogistic exp) 0 1 truth 2 junk [] = Some t /\ predictRule 0 1 (trStatistics t) r = Some p /\ predictedScore p 1 <> 0.
Proof.
  intros truth junk weights first r. split; [split; [reflexivity|repeat constructor]|]. split; [split; [reflexivity|repeat constructor]|].
  split; [reflexivity|]. split; [repeat constructor; lra|].
  assert (V : valid_rule false 3 2 first).
  { unfold valid_rule, first; simpl. repeat split; try discriminate; try (eexists; reflexivity); repeat constructor; simpl; try lia; intuition lia. }
  split; [constructor; [exact V|constructor]|]. split.
  { unfold valid_rule, r; simpl. repeat split; try discriminate; try (eexists; reflexivity); repeat constructor; simpl; try lia; intuition lia. }
  split.
  { split; [repeat constructor; simpl; intuition lia|]. split; [intros i; simpl; intuition lia|].
    intros i Hi. simpl in Hi. destruct Hi as [<- |[<- |[<- |[]]]]; reflexivity. }
  split; [simpl; lra|]. split; [unfold coveredWeight; simpl; lra|]. eexists. eexists. split; [reflexivity|]. split; [reflexivity|]. cbn. unfold outputWiseScore, divideOrZero, getL1Weight. cbn.
  assert (L : logisticFunction exp 0 = / 2) by (unfold logisticFunction; destruct (Rlt_dec 0 0); [lra|]; rewrite Ropp_0, exp_0; lra).
  assert (Q : squaredLogisticFunction exp 0 = / 4) by (unfold squaredLogisticFunction; destruct (Rlt_dec 0 0); [lra|]; rewrite Ropp_0, exp_0; lra).
  rewrite L, Q.
  repeat match goal with |- context[Req_EM_T ?a ?b] => destruct (Req_EM_T a b); try lra | |- context[Rgt_dec ?a ?b] => destruct (Rgt_dec a b); try lra
    | |- context[Rlt_dec ?a ?b] => destruct (Rlt_dec a b); try lra end.
Qed.

(** If rules for regression predict for some of the outputs, the statistics of other outputs are updated and the loss may increase. *)
Theorem C132_regression_refuted : exists (truth : list (list R)) n m junk weights rules r before after,
    isMatrix n m truth /\ isMatrix n m junk /\ length weights = n /\ Forall (fun w => 0 <= w) weights /\
    Forall (valid_rule false n m) rules /\ valid_rule false n m r /\ calculated_from weights r /\ ruleShrinkage r = 1 /\
    train true updateSquaredErrorRegression 0 0 truth m junk rules = Some before /\
    train true updateSquaredErrorRegression 0 0 truth m junk (rules ++ [r]) = Some after /\
    trainingLoss evaluateSquaredErrorRegression weights truth (trScores before) <
      trainingLoss evaluateSquaredErrorRegression weights truth (trScores after).
Proof. exact regression_training_refuted. Qed.
Print Assumptions C132_regression_refuted.
(** If the loss is not regularized, a step of Newton's method may increase the logistic loss. 19 out of 20 labels are relevant, the first two rules
    cover all examples and the third one covers the irrelevant label and one of the relevant ones. *)
Theorem C132_logistic_refuted : exists truth n m junk weights rules r before after,
    isMatrix n m truth /\ isMatrix n m junk /\ length weights = n /\ Forall (fun w => 0 <= w) weights /\
    Forall (valid_rule false n m) rules /\ Forall (calculated_from weights) rules /\ valid_rule false n m r /\ calculated_from weights r /\
    ruleShrinkage r = 1 /\
    train false (updateLogistic exp) 0 0 truth m junk rules = Some before /\
    train false (updateLogistic exp) 0 0 truth m junk (rules ++ [r]) = Some after /\
    trainingLoss (evaluateLogistic exp) weights truth (trScores before) <
      trainingLoss (evaluateLogistic exp) weights truth (trScores after).
Proof. exact logistic_training_refuted. Qed.
Print Assumptions C132_logistic_refuted.
