(** Properties of the models that result from training a boosted ensemble. *)
From Coq Require Import Reals ZArith NArith List Bool Arith Lra Lia.
From Verif Require Import Lib.Arr Model.Rules Model.Losses Model.BoostStatistics Model.BoostTraining Model.Prediction Model.BoostModel
  Spec.Rules Spec.BoostStatistics Spec.BoostTraining Spec.BoostModel Proofs.BoostModel.
Import ListNotations.
Open Scope R_scope.

(** ** C133: Using more rules does not worsen the predictions for the training data *)

(** The scores that are predicted for the training examples with a certain number of rules are those that have been used during training after
    learning that many rules, if no values are missing. *)
Theorem C133_scores_partial : forall (T : Type) (d : T) regression (update : T -> R -> R * R) l1 l2 (truth : list (list T)) n m junk junkF junkI default rules numUsedRules fm row,
    isMatrix n m truth -> isMatrix n m junk -> fmRows fm = n -> (forall i, (i < n)%nat -> example_row fm i (row i)) ->
    learned_from regression n m row default rules -> Forall (fun cr => no_missing n row (fst cr)) rules ->
    (numUsedRules <= length (allRules default rules))%nat -> (N.of_nat (length (allRules default rules)) < 2 ^ 32)%N ->
    exists model final,
      learnModel regression update l1 l2 truth m junk junkF junkI default rules numUsedRules = Some (model, final) /\
      train regression update l1 l2 truth m junk (allRules default rules) = Some final /\
      forall cell maxRules, exists t,
        train regression update l1 l2 truth m junk (firstn (numUsed numUsedRules maxRules (length (allRules default rules))) (allRules default rules)) = Some t /\
        predictScores Rplus 0 cell fm model m maxRules = Some (trScores t).
Proof. exact model_scores. Qed.
Print Assumptions C133_scores_partial.

(* A sparse feature matrix, a default rule and a rule that covers the last two examples *)
Example C133_scores_partial_example :
  let truth := [[true; false]; [false; true]; [true; true]] in let junk := [[(8, 9); (8, 9)]; [(8, 9); (8, 9)]; [(8, 9); (8, 9)]] in
  let row := fun i => nth i [[Fin 5; Fin 0]; [Fin 1; Fin 7]; [Fin 0; Fin 2]] [] in
  let fm := CsrMatrix 2 (Fin 0) [[(0%nat, Fin 5)]; [(1%nat, Fin 7); (0%nat, Fin 1)]; [(1%nat, Fin 2)]] in
  let default := mkRule (EqualWeights 3) [0; 1; 2]%nat (AllOutputs 2) 1 [0; 1; 2]%nat in
  let conditions := [mkCond 0 NUMERICAL_LEQ (TFloat (Fin 3)); mkCond 1 NUMERICAL_GR (TFloat (Fin 1))] in
  let r := mkRule (IndividualWeights [9; 1; 1]) [2; 1]%nat (SomeOutputs [1%nat]) (1 / 4) [1; 2]%nat in
  isMatrix 3 2 truth /\ isMatrix 3 2 junk /\ fmRows fm = 3%nat /\ (forall i, (i < 3)%nat -> example_row fm i (row i)) /\
  learned_from false 3 2 row (Some default) [(conditions, r)] /\ Forall (fun cr => no_missing 3 row (fst cr)) [(conditions, r)] /\
  (0 <= length (allRules (Some default) [(conditions, r)]))%nat /\ (N.of_nat (length (allRules (Some default) [(conditions, r)])) < 2 ^ 32)%N.
Proof.
  intros truth junk row fm default conditions r. split; [split; [reflexivity|repeat constructor]|]. split; [split; [reflexivity|repeat constructor]|].
  split; [reflexivity|]. split.
  { intros [|[|[|i]]] Hi; [| | |lia]; eexists; (split; [reflexivity|]); (split; [reflexivity|]);
      (split; [intros f v H; simpl in H; repeat (destruct H as [H|H]; [injection H as <- <-; reflexivity|]); destruct H|]);
      (intros [|[|f]] Hf H; [first [reflexivity|exfalso; apply H; simpl; auto]|first [reflexivity|exfalso; apply H; simpl; auto]|lia]). }
  split.
  { split.
    - intros x [= <-]. split.
      + unfold valid_rule, default; simpl. repeat split; try discriminate; try (eexists; reflexivity); repeat constructor; simpl; try lia; intuition lia.
      + intros i. simpl. split; [intuition lia|]. intros Hi. destruct i as [|[|[|i]]]; auto. lia.
    - constructor; [|constructor]. split.
      { unfold valid_rule, r; simpl. repeat split; try discriminate; try (eexists; reflexivity); repeat constructor; simpl; try lia; intuition lia. }
      split; [repeat constructor|]. intros i. cbn [ruleCovered fst snd r]. split.
      + intros [<- |[<- |[]]]; (split; [lia|]); repeat (constructor; [eexists; split; [reflexivity|simpl; lia]|]); constructor.
      + intros (Hi & H). apply Forall_cons_iff in H. destruct H as ((z & E & S) & _). destruct i as [|[|[|i]]]; [|left; auto|right; left; auto|lia].
        injection E as <-. simpl in S. lia. }
  split.
  { constructor; [|constructor]. intros [|[|[|i]]] Hi; [| | |lia]; repeat (constructor; [eexists; split; [reflexivity|discriminate]|]); constructor. }
  split; [simpl; lia|]. reflexivity.
Qed.

(** Squared error, classification, if no values are missing. *)
Theorem C133_squared_error_partial : forall l1 l2 truth n m junk junkF junkI default rules numUsedRules fm row weights,
    isMatrix n m truth -> isMatrix n m junk -> fmRows fm = n -> (forall i, (i < n)%nat -> example_row fm i (row i)) ->
    learned_from false n m row default rules -> Forall (fun cr => no_missing n row (fst cr)) rules ->
    (numUsedRules <= length (allRules default rules))%nat -> (N.of_nat (length (allRules default rules)) < 2 ^ 32)%N ->
    0 <= l1 -> 0 <= l2 -> length weights = n -> Forall (fun w => 0 <= w) weights ->
    Forall (fun r => calculated_from weights r /\ 0 <= ruleShrinkage r <= 1) (allRules default rules) ->
    exists model final,
      learnModel false updateSquaredErrorClassification l1 l2 truth m junk junkF junkI default rules numUsedRules = Some (model, final) /\
      forall cell,
        (forall a b, (0 < a <= b)%nat -> exists before after,
           predictScores Rplus 0 cell fm model m a = Some before /\ predictScores Rplus 0 cell fm model m b = Some after /\
           trainingLoss evaluateSquaredErrorClassification weights truth after <= trainingLoss evaluateSquaredErrorClassification weights truth before) /\
        (forall b, exists after, predictScores Rplus 0 cell fm model m b = Some after /\
           trainingLoss evaluateSquaredErrorClassification weights truth after <=
             trainingLoss evaluateSquaredErrorClassification weights truth (repeat (repeat 0 m) n)).
Proof. exact squared_error_model. Qed.
Print Assumptions C133_squared_error_partial.

(* A sparse feature matrix, a default rule and a rule that covers the last two examples *)
Example C133_squared_error_partial_example :
  let truth := [[true; false]; [false; true]; [true; true]] in let junk := [[(8, 9); (8, 9)]; [(8, 9); (8, 9)]; [(8, 9); (8, 9)]] in
  let row := fun i => nth i [[Fin 5; Fin 0]; [Fin 1; Fin 7]; [Fin 0; Fin 2]] [] in
  let fm := CsrMatrix 2 (Fin 0) [[(0%nat, Fin 5)]; [(1%nat, Fin 7); (0%nat, Fin 1)]; [(1%nat, Fin 2)]] in
  let default := mkRule (EqualWeights 3) [0; 1; 2]%nat (AllOutputs 2) 1 [0; 1; 2]%nat in
  let conditions := [mkCond 0 NUMERICAL_LEQ (TFloat (Fin 3)); mkCond 1 NUMERICAL_GR (TFloat (Fin 1))] in
  let r := mkRule (IndividualWeights [9; 1; 1]) [2; 1]%nat (SomeOutputs [1%nat]) (1 / 4) [1; 2]%nat in
  isMatrix 3 2 truth /\ isMatrix 3 2 junk /\ fmRows fm = 3%nat /\ (forall i, (i < 3)%nat -> example_row fm i (row i)) /\
  learned_from false 3 2 row (Some default) [(conditions, r)] /\ Forall (fun cr => no_missing 3 row (fst cr)) [(conditions, r)] /\
  (0 <= length (allRules (Some default) [(conditions, r)]))%nat /\ (N.of_nat (length (allRules (Some default) [(conditions, r)])) < 2 ^ 32)%N /\
  Forall (fun r => calculated_from [1; 1; 1] r /\ 0 <= ruleShrinkage r <= 1) (allRules (Some default) [(conditions, r)]).
Proof.
  intros truth junk row fm default conditions r. split; [split; [reflexivity|repeat constructor]|]. split; [split; [reflexivity|repeat constructor]|].
  split; [reflexivity|]. split.
  { intros [|[|[|i]]] Hi; [| | |lia]; eexists; (split; [reflexivity|]); (split; [reflexivity|]);
      (split; [intros f v H; simpl in H; repeat (destruct H as [H|H]; [injection H as <- <-; reflexivity|]); destruct H|]);
      (intros [|[|f]] Hf H; [first [reflexivity|exfalso; apply H; simpl; auto]|first [reflexivity|exfalso; apply H; simpl; auto]|lia]). }
  split.
  { split.
    - intros x [= <-]. split.
      + unfold valid_rule, default; simpl. repeat split; try discriminate; try (eexists; reflexivity); repeat constructor; simpl; try lia; intuition lia.
      + intros i. simpl. split; [intuition lia|]. intros Hi. destruct i as [|[|[|i]]]; auto. lia.
    - constructor; [|constructor]. split.
      { unfold valid_rule, r; simpl. repeat split; try discriminate; try (eexists; reflexivity); repeat constructor; simpl; try lia; intuition lia. }
      split; [repeat constructor|]. intros i. cbn [ruleCovered fst snd r]. split.
      + intros [<- |[<- |[]]]; (split; [lia|]); repeat (constructor; [eexists; split; [reflexivity|simpl; lia]|]); constructor.
      + intros (Hi & H). apply Forall_cons_iff in H. destruct H as ((z & E & S) & _). destruct i as [|[|[|i]]]; [|left; auto|right; left; auto|lia].
        injection E as <-. simpl in S. lia. }
  split.
  { constructor; [|constructor]. intros [|[|[|i]]] Hi; [| | |lia]; repeat (constructor; [eexists; split; [reflexivity|discriminate]|]); constructor. }
  split; [simpl; lia|]. split; [reflexivity|]. constructor; [|constructor; [|constructor]].
  - split; [|simpl; lra]. split; [repeat constructor; simpl; intuition lia|]. split; [intros i; simpl; intuition lia|].
    intros i Hi. simpl in Hi. destruct Hi as [<- |[<- |[<- |[]]]]; reflexivity.
  - split; [|simpl; lra]. split; [repeat constructor; simpl; intuition lia|]. split; [intros i; simpl; intuition lia|].
    intros i Hi. simpl in Hi. destruct Hi as [<- |[<- |[]]]; reflexivity.
Qed.

(** Squared hinge loss. *)
Theorem C133_squared_hinge_partial : forall l1 l2 truth n m junk junkF junkI default rules numUsedRules fm row weights,
    isMatrix n m truth -> isMatrix n m junk -> fmRows fm = n -> (forall i, (i < n)%nat -> example_row fm i (row i)) ->
    learned_from false n m row default rules -> Forall (fun cr => no_missing n row (fst cr)) rules ->
    (numUsedRules <= length (allRules default rules))%nat -> (N.of_nat (length (allRules default rules)) < 2 ^ 32)%N ->
    0 <= l1 -> 0 <= l2 -> length weights = n -> Forall (fun w => 0 <= w) weights ->
    Forall (fun r => calculated_from weights r /\ 0 <= ruleShrinkage r <= 1) (allRules default rules) ->
    exists model final,
      learnModel false updateSquaredHinge l1 l2 truth m junk junkF junkI default rules numUsedRules = Some (model, final) /\
      forall cell,
        (forall a b, (0 < a <= b)%nat -> exists before after,
           predictScores Rplus 0 cell fm model m a = Some before /\ predictScores Rplus 0 cell fm model m b = Some after /\
           trainingLoss evaluateSquaredHinge weights truth after <= trainingLoss evaluateSquaredHinge weights truth before) /\
        (forall b, exists after, predictScores Rplus 0 cell fm model m b = Some after /\
           trainingLoss evaluateSquaredHinge weights truth after <= trainingLoss evaluateSquaredHinge weights truth (repeat (repeat 0 m) n)).
Proof. exact squared_hinge_model. Qed.
Print Assumptions C133_squared_hinge_partial.

(* A sparse feature matrix, a default rule and a rule that covers the last two examples *)
Example C133_squared_hinge_partial_example :
  let truth := [[true; false]; [false; true]; [true; true]] in let junk := [[(8, 9); (8, 9)]; [(8, 9); (8, 9)]; [(8, 9); (8, 9)]] in
  let row := fun i => nth i [[Fin 5; Fin 0]; [Fin 1; Fin 7]; [Fin 0; Fin 2]] [] in
  let fm := CsrMatrix 2 (Fin 0) [[(0%nat, Fin 5)]; [(1%nat, Fin 7); (0%nat, Fin 1)]; [(1%nat, Fin 2)]] in
  let default := mkRule (EqualWeights 3) [0; 1; 2]%nat (AllOutputs 2) 1 [0; 1; 2]%nat in
  let conditions := [mkCond 0 NUMERICAL_LEQ (TFloat (Fin 3)); mkCond 1 NUMERICAL_GR (TFloat (Fin 1))] in
  let r := mkRule (IndividualWeights [9; 1; 1]) [2; 1]%nat (SomeOutputs [1%nat]) (1 / 4) [1; 2]%nat in
  isMatrix 3 2 truth /\ isMatrix 3 2 junk /\ fmRows fm = 3%nat /\ (forall i, (i < 3)%nat -> example_row fm i (row i)) /\
  learned_from false 3 2 row (Some default) [(conditions, r)] /\ Forall (fun cr => no_missing 3 row (fst cr)) [(conditions, r)] /\
  (0 <= length (allRules (Some default) [(conditions, r)]))%nat /\ (N.of_nat (length (allRules (Some default) [(conditions, r)])) < 2 ^ 32)%N /\
  Forall (fun r => calculated_from [1; 1; 1] r /\ 0 <= ruleShrinkage r <= 1) (allRules (Some default) [(conditions, r)]).
Proof.
  intros truth junk row fm default conditions r. split; [split; [reflexivity|repeat constructor]|]. split; [split; [reflexivity|repeat constructor]|].
  split; [reflexivity|]. split.
  { intros [|[|[|i]]] Hi; [| | |lia]; eexists; (split; [reflexivity|]); (split; [reflexivity|]);
      (split; [intros f v H; simpl in H; repeat (destruct H as [H|H]; [injection H as <- <-; reflexivity|]); destruct H|]);
      (intros [|[|f]] Hf H; [first [reflexivity|exfalso; apply H; simpl; auto]|first [reflexivity|exfalso; apply H; simpl; auto]|lia]). }
  split.
  { split.
    - intros x [= <-]. split.
      + unfold valid_rule, default; simpl. repeat split; try discriminate; try (eexists; reflexivity); repeat constructor; simpl; try lia; intuition lia.
      + intros i. simpl. split; [intuition lia|]. intros Hi. destruct i as [|[|[|i]]]; auto. lia.
    - constructor; [|constructor]. split.
      { unfold valid_rule, r; simpl. repeat split; try discriminate; try (eexists; reflexivity); repeat constructor; simpl; try lia; intuition lia. }
      split; [repeat constructor|]. intros i. cbn [ruleCovered fst snd r]. split.
      + intros [<- |[<- |[]]]; (split; [lia|]); repeat (constructor; [eexists; split; [reflexivity|simpl; lia]|]); constructor.
      + intros (Hi & H). apply Forall_cons_iff in H. destruct H as ((z & E & S) & _). destruct i as [|[|[|i]]]; [|left; auto|right; left; auto|lia].
        injection E as <-. simpl in S. lia. }
  split.
  { constructor; [|constructor]. intros [|[|[|i]]] Hi; [| | |lia]; repeat (constructor; [eexists; split; [reflexivity|discriminate]|]); constructor. }
  split; [simpl; lia|]. split; [reflexivity|]. constructor; [|constructor; [|constructor]].
  - split; [|simpl; lra]. split; [repeat constructor; simpl; intuition lia|]. split; [intros i; simpl; intuition lia|].
    intros i Hi. simpl in Hi. destruct Hi as [<- |[<- |[<- |[]]]]; reflexivity.
  - split; [|simpl; lra]. split; [repeat constructor; simpl; intuition lia|]. split; [intros i; simpl; intuition lia|].
    intros i Hi. simpl in Hi. destruct Hi as [<- |[<- |[]]]; reflexivity.
Qed.

(** Squared error, regression, rules that predict for all outputs. *)
Theorem C133_squared_error_regression_partial : forall l1 l2 truth n m junk junkF junkI default rules numUsedRules fm row weights,
    isMatrix n m truth -> isMatrix n m junk -> fmRows fm = n -> (forall i, (i < n)%nat -> example_row fm i (row i)) ->
    learned_from true n m row default rules -> Forall (fun cr => no_missing n row (fst cr)) rules ->
    (numUsedRules <= length (allRules default rules))%nat -> (N.of_nat (length (allRules default rules)) < 2 ^ 32)%N ->
    0 <= l1 -> 0 <= l2 -> length weights = n -> Forall (fun w => 0 <= w) weights ->
    Forall (fun r => calculated_from weights r /\ 0 <= ruleShrinkage r <= 1) (allRules default rules) ->
    exists model final,
      learnModel true updateSquaredErrorRegression l1 l2 truth m junk junkF junkI default rules numUsedRules = Some (model, final) /\
      forall cell,
        (forall a b, (0 < a <= b)%nat -> exists before after,
           predictScores Rplus 0 cell fm model m a = Some before /\ predictScores Rplus 0 cell fm model m b = Some after /\
           trainingLoss evaluateSquaredErrorRegression weights truth after <= trainingLoss evaluateSquaredErrorRegression weights truth before) /\
        (forall b, exists after, predictScores Rplus 0 cell fm model m b = Some after /\
           trainingLoss evaluateSquaredErrorRegression weights truth after <=
             trainingLoss evaluateSquaredErrorRegression weights truth (repeat (repeat 0 m) n)).
Proof. exact squared_error_regression_model. Qed.
Print Assumptions C133_squared_error_regression_partial.

(* A sparse feature matrix, a default rule and a rule that covers the last two examples *)
Example C133_squared_error_regression_partial_example :
  let truth := [[3; 2]; [0; 1]; [5; 7]] in let junk := [[(8, 9); (8, 9)]; [(8, 9); (8, 9)]; [(8, 9); (8, 9)]] in
  let row := fun i => nth i [[Fin 5; Fin 0]; [Fin 1; Fin 7]; [Fin 0; Fin 2]] [] in
  let fm := CsrMatrix 2 (Fin 0) [[(0%nat, Fin 5)]; [(1%nat, Fin 7); (0%nat, Fin 1)]; [(1%nat, Fin 2)]] in
  let default := mkRule (EqualWeights 3) [0; 1; 2]%nat (AllOutputs 2) 1 [0; 1; 2]%nat in
  let conditions := [mkCond 0 NUMERICAL_LEQ (TFloat (Fin 3)); mkCond 1 NUMERICAL_GR (TFloat (Fin 1))] in
  let r := mkRule (IndividualWeights [9; 1; 1]) [2; 1]%nat (AllOutputs 2) (1 / 4) [1; 2]%nat in
  isMatrix 3 2 truth /\ isMatrix 3 2 junk /\ fmRows fm = 3%nat /\ (forall i, (i < 3)%nat -> example_row fm i (row i)) /\
  learned_from true 3 2 row (Some default) [(conditions, r)] /\ Forall (fun cr => no_missing 3 row (fst cr)) [(conditions, r)] /\
  (0 <= length (allRules (Some default) [(conditions, r)]))%nat /\ (N.of_nat (length (allRules (Some default) [(conditions, r)])) < 2 ^ 32)%N /\
  Forall (fun r => calculated_from [1; 1; 1] r /\ 0 <= ruleShrinkage r <= 1) (allRules (Some default) [(conditions, r)]).
Proof.
  intros truth junk row fm default conditions r. split; [split; [reflexivity|repeat constructor]|]. split; [split; [reflexivity|repeat constructor]|].
  split; [reflexivity|]. split.
  { intros [|[|[|i]]] Hi; [| | |lia]; eexists; (split; [reflexivity|]); (split; [reflexivity|]);
      (split; [intros f v H; simpl in H; repeat (destruct H as [H|H]; [injection H as <- <-; reflexivity|]); destruct H|]);
      (intros [|[|f]] Hf H; [first [reflexivity|exfalso; apply H; simpl; auto]|first [reflexivity|exfalso; apply H; simpl; auto]|lia]). }
  split.
  { split.
    - intros x [= <-]. split.
      + unfold valid_rule, default; simpl. repeat split; try discriminate; try (eexists; reflexivity); repeat constructor; simpl; try lia; intuition lia.
      + intros i. simpl. split; [intuition lia|]. intros Hi. destruct i as [|[|[|i]]]; auto. lia.
    - constructor; [|constructor]. split.
      { unfold valid_rule, r; simpl. repeat split; try discriminate; try (eexists; reflexivity); repeat constructor; simpl; try lia; intuition lia. }
      split; [repeat constructor|]. intros i. cbn [ruleCovered fst snd r]. split.
      + intros [<- |[<- |[]]]; (split; [lia|]); repeat (constructor; [eexists; split; [reflexivity|simpl; lia]|]); constructor.
      + intros (Hi & H). apply Forall_cons_iff in H. destruct H as ((z & E & S) & _). destruct i as [|[|[|i]]]; [|left; auto|right; left; auto|lia].
        injection E as <-. simpl in S. lia. }
  split.
  { constructor; [|constructor]. intros [|[|[|i]]] Hi; [| | |lia]; repeat (constructor; [eexists; split; [reflexivity|discriminate]|]); constructor. }
  split; [simpl; lia|]. split; [reflexivity|]. constructor; [|constructor; [|constructor]].
  - split; [|simpl; lra]. split; [repeat constructor; simpl; intuition lia|]. split; [intros i; simpl; intuition lia|].
    intros i Hi. simpl in Hi. destruct Hi as [<- |[<- |[<- |[]]]]; reflexivity.
  - split; [|simpl; lra]. split; [repeat constructor; simpl; intuition lia|]. split; [intros i; simpl; intuition lia|].
    intros i Hi. simpl in Hi. destruct Hi as [<- |[<- |[]]]; reflexivity.
Qed.

(** Logistic loss, if the L2 regularization weight is large enough. *)
Theorem C133_logistic_partial : forall e : R -> R, (forall x, x <= 0 -> e x = exp x) ->
  forall l1 l2 truth n m junk junkF junkI default rules numUsedRules fm row weights,
    isMatrix n m truth -> isMatrix n m junk -> fmRows fm = n -> (forall i, (i < n)%nat -> example_row fm i (row i)) ->
    learned_from false n m row default rules -> Forall (fun cr => no_missing n row (fst cr)) rules ->
    (numUsedRules <= length (allRules default rules))%nat -> (N.of_nat (length (allRules default rules)) < 2 ^ 32)%N ->
    0 <= l1 -> 0 <= l2 -> length weights = n -> Forall (fun w => 0 <= w) weights ->
    Forall (fun r => calculated_from weights r /\ 0 <= ruleShrinkage r /\ ruleShrinkage r * coveredWeight weights r <= 4 * l2) (allRules default rules) ->
    exists model final,
      learnModel false (updateLogistic e) l1 l2 truth m junk junkF junkI default rules numUsedRules = Some (model, final) /\
      forall cell,
        (forall a b, (0 < a <= b)%nat -> exists before after,
           predictScores Rplus 0 cell fm model m a = Some before /\ predictScores Rplus 0 cell fm model m b = Some after /\
           trainingLoss (evaluateLogistic e) weights truth after <= trainingLoss (evaluateLogistic e) weights truth before) /\
        (forall b, exists after, predictScores Rplus 0 cell fm model m b = Some after /\
           trainingLoss (evaluateLogistic e) weights truth after <= trainingLoss (evaluateLogistic e) weights truth (repeat (repeat 0 m) n)).
Proof. exact logistic_model. Qed.
Print Assumptions C133_logistic_partial.

(* A sparse feature matrix, a default rule and a rule that covers the last two examples *)
Example C133_logistic_partial_example :
  let truth := [[true; false]; [false; true]; [true; true]] in let junk := [[(8, 9); (8, 9)]; [(8, 9); (8, 9)]; [(8, 9); (8, 9)]] in
  let row := fun i => nth i [[Fin 5; Fin 0]; [Fin 1; Fin 7]; [Fin 0; Fin 2]] [] in
  let fm := CsrMatrix 2 (Fin 0) [[(0%nat, Fin 5)]; [(1%nat, Fin 7); (0%nat, Fin 1)]; [(1%nat, Fin 2)]] in
  let default := mkRule (EqualWeights 3) [0; 1; 2]%nat (AllOutputs 2) 1 [0; 1; 2]%nat in
  let conditions := [mkCond 0 NUMERICAL_LEQ (TFloat (Fin 3)); mkCond 1 NUMERICAL_GR (TFloat (Fin 1))] in
  let r := mkRule (IndividualWeights [9; 1; 1]) [2; 1]%nat (SomeOutputs [1%nat]) (1 / 4) [1; 2]%nat in
  isMatrix 3 2 truth /\ isMatrix 3 2 junk /\ fmRows fm = 3%nat /\ (forall i, (i < 3)%nat -> example_row fm i (row i)) /\
  learned_from false 3 2 row (Some default) [(conditions, r)] /\ Forall (fun cr => no_missing 3 row (fst cr)) [(conditions, r)] /\
  (0 <= length (allRules (Some default) [(conditions, r)]))%nat /\ (N.of_nat (length (allRules (Some default) [(conditions, r)])) < 2 ^ 32)%N /\
  Forall (fun r => calculated_from [1; 1; 1] r /\ 0 <= ruleShrinkage r /\ ruleShrinkage r * coveredWeight [1; 1; 1] r <= 4 * 1) (allRules (Some default) [(conditions, r)]).
Proof.
  intros truth junk row fm default conditions r. split; [split; [reflexivity|repeat constructor]|]. split; [split; [reflexivity|repeat constructor]|].
  split; [reflexivity|]. split.
  { intros [|[|[|i]]] Hi; [| | |lia]; eexists; (split; [reflexivity|]); (split; [reflexivity|]);
      (split; [intros f v H; simpl in H; repeat (destruct H as [H|H]; [injection H as <- <-; reflexivity|]); destruct H|]);
      (intros [|[|f]] Hf H; [first [reflexivity|exfalso; apply H; simpl; auto]|first [reflexivity|exfalso; apply H; simpl; auto]|lia]). }
  split.
  { split.
    - intros x [= <-]. split.
      + unfold valid_rule, default; simpl. repeat split; try discriminate; try (eexists; reflexivity); repeat constructor; simpl; try lia; intuition lia.
      + intros i. simpl. split; [intuition lia|]. intros Hi. destruct i as [|[|[|i]]]; auto. lia.
    - constructor; [|constructor]. split.
      { unfold valid_rule, r; simpl. repeat split; try discriminate; try (eexists; reflexivity); repeat constructor; simpl; try lia; intuition lia. }
      split; [repeat constructor|]. intros i. cbn [ruleCovered fst snd r]. split.
      + intros [<- |[<- |[]]]; (split; [lia|]); repeat (constructor; [eexists; split; [reflexivity|simpl; lia]|]); constructor.
      + intros (Hi & H). apply Forall_cons_iff in H. destruct H as ((z & E & S) & _). destruct i as [|[|[|i]]]; [|left; auto|right; left; auto|lia].
        injection E as <-. simpl in S. lia. }
  split.
  { constructor; [|constructor]. intros [|[|[|i]]] Hi; [| | |lia]; repeat (constructor; [eexists; split; [reflexivity|discriminate]|]); constructor. }
  split; [simpl; lia|]. split; [reflexivity|]. constructor; [|constructor; [|constructor]].
  - split; [|unfold coveredWeight; simpl; lra]. split; [repeat constructor; simpl; intuition lia|]. split; [intros i; simpl; intuition lia|].
    intros i Hi. simpl in Hi. destruct Hi as [<- |[<- |[<- |[]]]]; reflexivity.
  - split; [|unfold coveredWeight; simpl; lra]. split; [repeat constructor; simpl; intuition lia|]. split; [intros i; simpl; intuition lia|].
    intros i Hi. simpl in Hi. destruct Hi as [<- |[<- |[]]]; reflexivity.
Qed.

(** If values are missing, the predictions for training examples may be worse than without any rules. *)
Theorem C133_missing_refuted : exists l1 l2 truth junk rules fm row model final scores,
    isMatrix 2 1 truth /\ isMatrix 2 1 junk /\ fmRows fm = 2%nat /\ (forall i, (i < 2)%nat -> example_row fm i (row i)) /\
    learned_from false 2 1 row None rules /\ Forall (fun r => calculated_from [1; 1] r /\ 0 <= ruleShrinkage r <= 1) (allRules None rules) /\
    (forall junkF junkI, learnModel false updateSquaredErrorClassification l1 l2 truth 1 junk junkF junkI None rules 0 = Some (model, final)) /\
    (forall cell, predictScores Rplus 0 cell fm model 1 0 = Some scores) /\ scores <> trScores final /\
    trainingLoss evaluateSquaredErrorClassification [1; 1] truth (repeat (repeat 0 1) 2) < trainingLoss evaluateSquaredErrorClassification [1; 1] truth scores.
Proof. exact missing_model_refuted. Qed.
Print Assumptions C133_missing_refuted.
