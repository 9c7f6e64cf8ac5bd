(** Properties of the models that result from training a separate-and-conquer algorithm. *)
From Coq Require Import ZArith NArith List Bool Arith Lia Sorted.
From Verif Require Import Lib.Arr Model.Rules Model.SecoStatistics Model.Prediction Model.SecoPrediction Model.SecoModel
  Spec.Rules Spec.Seco Spec.BoostModel Spec.SecoModel Proofs.SecoModel.
Import ListNotations.
Open Scope nat_scope.

(** ** C134: The predictions for training examples are those that are recorded during training *)

(** If no values are missing, a decision list that consists of the first rules and the default rule deviates from the majority labels for exactly those labels of the training examples that have been covered when these rules were learned. The number of errors follows from the sum of the uncovered weights. *)
Theorem C134_predictions_partial : forall junk lm label row fm junkF junkI rules numUsedRules cell junkLabels maxRules k,
    represents lm label -> length junk = lmCols lm -> fmRows fm = lmRows lm -> (forall i, i < lmRows lm -> example_row fm i (row i)) ->
    Forall (fun r => valid_seco_rule (lmRows lm) (lmCols lm) row r /\ predicts_minority label (lmRows lm) (srHead r)) rules ->
    Forall (fun r => no_missing (lmRows lm) row (srConditions r)) rules ->
    (N.of_nat (S (length rules)) < 2 ^ 32)%N -> numUsedRules <= S (length rules) ->
    length junkLabels = lmRows lm -> Forall (fun r => length r = lmCols lm) junkLabels ->
    numUsed numUsedRules maxRules (S (length rules)) = S k ->
    exists model final prefix c result,
      learnDecisionList junk lm junkF junkI true rules numUsedRules = Some (model, final) /\
      learnDecisionList junk lm junkF junkI true (firstn k rules) 0 = Some (prefix, c) /\
      predictDense cell junkLabels fm model (lmCols lm) maxRules = Some result /\ length result = lmRows lm /\
      (forall e l, e < lmRows lm -> l < lmCols lm ->
        nth (e * lmCols lm + l) (cvCounts c) 0%N = N.of_nat (count (fun r => affects r e l) (firstn k rules)) /\
        exists b, nth_error (nth e result []) l = Some b /\
          (nth (e * lmCols lm + l) (cvCounts c) 0%N = 0%N -> b = true <-> is_majority label (lmRows lm) l) /\
          (nth (e * lmCols lm + l) (cvCounts c) 0%N <> 0%N -> b = true <-> ~ is_majority label (lmRows lm) l)) /\
      Z.of_nat (errors label (lmRows lm) (lmCols lm) (fun e l => nth l (nth e result []) false)) =
        (cvSum c + 2 * Z.of_nat (count (fun x => negb (nth (fst x * lmCols lm + snd x) (cvCounts c) 0 =? 0)%N &&
          negb (eqb (label (fst x) (snd x)) (nth (snd x) (nth (fst x) result []) false))) (cells (lmRows lm) (lmCols lm))))%Z.
Proof. exact decision_list_predictions. Qed.
Print Assumptions C134_predictions_partial.

(* Sparse feature and label matrices. The first label is relevant to the majority of the examples. The first of two rules is used. *)
Example C134_predictions_partial_example :
  let lm := mkLabels 3 2 (CsrLabels [[0]; [0; 1]; []]) in let label := fun e l => (l <=? e) && (e <? 2) in
  let row := fun i => nth i [[Fin 5; Fin 0]; [Fin 1; Fin 7]; [Fin 0; Fin 2]] [] in
  let fm := CsrMatrix 2 (Fin 0) [[(0, Fin 5)]; [(1, Fin 7); (0, Fin 1)]; [(1, Fin 2)]] in
  let r1 := mkSecoRule [mkCond 0 NUMERICAL_LEQ (TFloat (Fin 3)); mkCond 1 NUMERICAL_GR (TFloat (Fin 1))] [2; 1] (SecoStatistics.PartialHead [0; 1] [false; true]) in
  let r2 := mkSecoRule [mkCond 0 NUMERICAL_GR (TFloat (Fin 3))] [0] (SecoStatistics.PartialHead [0] [false]) in
  represents lm label /\ length [7; 7] = lmCols lm /\ fmRows fm = lmRows lm /\ (forall i, i < lmRows lm -> example_row fm i (row i)) /\
  Forall (fun r => valid_seco_rule (lmRows lm) (lmCols lm) row r /\ predicts_minority label (lmRows lm) (srHead r)) [r1; r2] /\
  Forall (fun r => no_missing (lmRows lm) row (srConditions r)) [r1; r2] /\
  (N.of_nat (S (length [r1; r2])) < 2 ^ 32)%N /\ 0 <= S (length [r1; r2]) /\ numUsed 0 2 (S (length [r1; r2])) = 2 /\
  (forall junkF junkI, option_map snd (learnDecisionList [7; 7] lm junkF junkI true (firstn 1 [r1; r2]) 0) = Some (mkCoverage [0; 0; 1; 1; 1; 1]%N (-2)%Z)).
Proof.
  intros lm label row fm r1 r2. split.
  { split; [reflexivity|]. intros [|[|[|e]]] x H; cbn in H; [| | |destruct e; discriminate]; injection H as <-;
      (split; [repeat constructor|]); intros l; unfold label; simpl; (split; [intuition subst; (lia || reflexivity)|]); intros (Hl & H);
      destruct l as [|[|l]]; simpl in H; try discriminate H; try lia; auto. }
  split; [reflexivity|]. split; [reflexivity|]. split.
  { intros [|[|[|i]]] Hi; [| | |cbn in Hi; lia]; eexists; (split; [reflexivity|]); (split; [reflexivity|]);
      (split; [intros f v H; simpl in H; repeat (destruct H as [H|H]; [injection H as <- <-; reflexivity|]); destruct H|]);
      (intros [|[|f]] Hf H; [first [reflexivity|exfalso; apply H; simpl; auto]|first [reflexivity|exfalso; apply H; simpl; auto]|lia]). }
  split.
  { constructor; [|constructor; [|constructor]]; split.
    - split; [repeat constructor; simpl; intuition lia|]. split; [|split; [repeat constructor|]].
      + intros i. cbn [srCovered srConditions lmRows lm r1]. split.
        * intros [<- |[<- |[]]]; (split; [lia|]); repeat constructor; eexists; (split; [reflexivity|]); simpl; lia.
        * intros (Hi & H). apply Forall_cons_iff in H. destruct H as ((z & E & H) & _). simpl in H. destruct i as [|[|[|i]]]; simpl in E; simpl; auto; [|lia].
          injection E as <-. lia.
      + cbn. repeat split; repeat constructor; lia.
    - intros l b. cbn. destruct l as [|[|l]]; [| |discriminate]; intros [= <-]; unfold is_majority; cbn; split; (lia || discriminate || reflexivity).
    - split; [repeat constructor; simpl; intuition lia|]. split; [|split; [repeat constructor|]].
      + intros i. cbn [srCovered srConditions lmRows lm r2]. split.
        * intros [<- |[]]; (split; [lia|]); repeat constructor; eexists; (split; [reflexivity|]); simpl; lia.
        * intros (Hi & H). apply Forall_cons_iff in H. destruct H as ((z & E & H) & _). simpl in H. destruct i as [|[|[|i]]]; simpl in E; simpl; auto; [| |lia];
          injection E as <-; lia.
      + cbn. repeat split; repeat constructor; lia.
    - intros l b. cbn. destruct l as [|l]; [|discriminate]; intros [= <-]; unfold is_majority; cbn; split; (lia || discriminate || reflexivity). }
  split.
  { repeat apply Forall_cons; try apply Forall_nil; intros i Hi; repeat apply Forall_cons; try apply Forall_nil; (destruct i as [|[|[|i]]]; [eexists; split; [reflexivity|discriminate]..|cbn in Hi; lia]). }
  split; [reflexivity|]. split; [lia|]. split; [reflexivity|]. intros junkF junkI. reflexivity.
Qed.

(** If predictions are obtained in the sparse format, labels that are relevant to most of the examples are predicted as relevant, even if this has been corrected by a rule. *)
Theorem C134_sparse_refuted : exists junk lm label row fm rules model final result e l,
    represents lm label /\ length junk = lmCols lm /\ fmRows fm = lmRows lm /\ (forall i, i < lmRows lm -> example_row fm i (row i)) /\
    Forall (fun r => valid_seco_rule (lmRows lm) (lmCols lm) row r /\ predicts_minority label (lmRows lm) (srHead r)) rules /\
    Forall (fun r => no_missing (lmRows lm) row (srConditions r)) rules /\
    (forall junkF junkI, learnDecisionList junk lm junkF junkI true rules 0 = Some (model, final)) /\
    (forall cell, predictSparse cell fm model (lmCols lm) 0 = Some result) /\
    e < lmRows lm /\ l < lmCols lm /\ nth (e * lmCols lm + l) (cvCounts final) 0%N <> 0%N /\ label e l = false /\ is_majority label (lmRows lm) l /\
    In l (nth e result []).
Proof. exact sparse_list_refuted. Qed.
Print Assumptions C134_sparse_refuted.

(** If values are missing, a rule is applied to training examples it has not been considered to cover. *)
Theorem C134_missing_refuted : exists junk lm label row fm rules model final result e l,
    represents lm label /\ length junk = lmCols lm /\ fmRows fm = lmRows lm /\ (forall i, i < lmRows lm -> example_row fm i (row i)) /\
    Forall (fun r => valid_seco_rule (lmRows lm) (lmCols lm) row r /\ predicts_minority label (lmRows lm) (srHead r)) rules /\
    (forall junkF junkI, learnDecisionList junk lm junkF junkI true rules 0 = Some (model, final)) /\
    (forall cell junkLabels, length junkLabels = lmRows lm -> Forall (fun r => length r = lmCols lm) junkLabels ->
       predictDense cell junkLabels fm model (lmCols lm) 0 = Some result) /\
    e < lmRows lm /\ l < lmCols lm /\ nth (e * lmCols lm + l) (cvCounts final) 0%N = 0%N /\ label e l = false /\
    ~ is_majority label (lmRows lm) l /\ nth_error (nth e result []) l = Some true.
Proof. exact missing_list_refuted. Qed.
Print Assumptions C134_missing_refuted.
