(** Proofs about label-wise predictions. *)
From Coq Require Import Reals List Bool Arith Sorted Lia Lra.
From Verif Require Import Lib.Arr Model.Losses Model.OutputWise Spec.Losses.
From Verif Require Proofs.BoostEvaluation.
From Verif Require Import Proofs.Losses.
Import ListNotations.
Open Scope R_scope.

Lemma dense_prediction f scores memory : length memory = length scores ->
  exists p, predictOutputWise f scores memory = Some p /\ length p = length scores /\
    forall i, (i < length scores)%nat -> nth i p true = f i (nth i scores 0).
Proof.
  intros L. unfold predictOutputWise.
  match goal with |- context[forN ?m ?s ?g ?z] => destruct (forN_inv (fun j (q : list bool) => length q = length scores /\
    forall i, (i < j)%nat -> nth_error q i = Some (f i (nth i scores 0))) g m s z) as (q & E & Lq & V) end.
  - split; [auto|]. intros; lia.
  - intros j q Hj (Lq & V). rewrite (BoostEvaluation.aget_nth scores j 0) by lia. rewrite aset_Some by lia. eexists. split; [reflexivity|].
    rewrite upd_length. split; [auto|]. intros i Hi. destruct (Nat.eq_dec i j) as [->|N]; [apply nth_error_upd_eq; lia|].
    rewrite nth_error_upd_neq by auto. apply V. lia.
  - exists q. split; [exact E|]. split; [auto|]. intros i Hi. simpl in V. apply nth_error_nth. apply V. auto.
Qed.

Lemma sparse_prediction f scores :
  predictOutputWiseSparse f scores = Some (filter (fun i => f i (nth i scores 0)) (seq 0 (length scores))).
Proof.
  unfold predictOutputWiseSparse.
  match goal with |- context[forN ?m ?s ?g ?z] => destruct (forN_inv (fun j (q : list nat) =>
    q = filter (fun i => f i (nth i scores 0)) (seq 0 j)) g m s z) as (q & E & V) end.
  - reflexivity.
  - intros j q Hj ->. rewrite (BoostEvaluation.aget_nth scores j 0) by lia. eexists. split; [reflexivity|].
    rewrite seq_S, filter_app. simpl. destruct (f j (nth j scores 0)); [auto|rewrite app_nil_r; auto].
  - rewrite E, V. reflexivity.
Qed.

Lemma filter_SS {A} (R : A -> A -> Prop) p l : StronglySorted R l -> StronglySorted R (filter p l).
Proof.
  induction 1 as [|a l H IH F]; simpl; [constructor|]. destruct (p a); [|auto]. constructor; [auto|].
  rewrite Forall_forall in *. intros x Hx. apply filter_In in Hx. apply F. tauto.
Qed.

Lemma sparse_and_dense_predictions :
  forall (discretizeScore : nat -> R -> bool) scores memory, length memory = length scores ->
    exists prediction row, predictOutputWise discretizeScore scores memory = Some prediction /\
      predictOutputWiseSparse discretizeScore scores = Some row /\
      length prediction = length scores /\ StronglySorted lt row /\
      (forall i, (i < length scores)%nat -> nth i prediction true = discretizeScore i (nth i scores 0)) /\
      (forall i, In i row <-> (i < length scores)%nat /\ nth i prediction true = true).
Proof.
  intros f scores memory L. destruct (dense_prediction f scores memory L) as (p & E & LP & V).
  exists p, (filter (fun i => f i (nth i scores 0)) (seq 0 (length scores))). split; [auto|]. split; [apply sparse_prediction|]. split; [auto|].
  split; [apply filter_SS, BoostEvaluation.seq_SS|]. split; [auto|]. intros i. rewrite filter_In, in_seq. split.
  - intros (A & B). split; [lia|]. rewrite V by lia. auto.
  - intros (A & B). split; [lia|]. rewrite V in B by lia. auto.
Qed.

Lemma sumR_mono n f g : (forall i, (i < n)%nat -> f i <= g i) -> sumR n f <= sumR n g.
Proof. induction n; simpl; intros H; [lra|]. assert (sumR n f <= sumR n g) by (apply IHn; intros; apply H; lia). specialize (H n ltac:(lia)). lra. Qed.

Lemma logistic_choice label x i : exp (- expected (discretizeByScore defaultPredictionLogistic i x) * x) <= exp (- expected label * x).
Proof.
  assert (A : - expected (discretizeByScore defaultPredictionLogistic i x) * x <= - expected label * x).
  { unfold discretizeByScore, defaultPredictionLogistic, expected. destruct (Rgt_dec x 0), label; lra. }
  destruct A as [A | ->]; [left; apply exp_increasing; auto|lra].
Qed.

Lemma hinge_choice label x i : hinge (discretizeByScore defaultPredictionSquaredHinge i x) x <= hinge label x.
Proof.
  unfold discretizeByScore, defaultPredictionSquaredHinge, hinge. destruct (Rgt_dec x (1 / 2)), label; try lra.
  - rewrite (Rmax_left x 0) by lra. destruct (Rle_dec 1 x); [rewrite Rmax_right by lra; nra|rewrite Rmax_left by lra; nra].
  - rewrite (Rmax_left (1 - x) 0) by lra. destruct (Rle_dec x 0); [rewrite Rmax_right by lra; nra|rewrite Rmax_left by lra; nra].
Qed.

Lemma error_choice (label : bool) x i :
  ((if discretizeByScore defaultPredictionSquaredError i x then 1 else -1) - x) * ((if discretizeByScore defaultPredictionSquaredError i x then 1 else -1) - x) <=
  ((if label then 1 else -1) - x) * ((if label then 1 else -1) - x).
Proof. unfold discretizeByScore, defaultPredictionSquaredError. destruct (Rgt_dec x 0), label; nra. Qed.

Lemma ln_mono a b : 0 < a -> a <= b -> ln a <= ln b.
Proof. intros H [A | ->]; [left; apply ln_increasing; auto|lra]. Qed.

Section Minimal.
  Variables (f : nat -> R -> bool) (scores : list R) (p labels : list bool).
  Hypothesis LP : length p = length scores.
  Hypothesis LL : length labels = length scores.
  Hypothesis V : forall i, (i < length scores)%nat -> nth i p true = f i (nth i scores 0).

  Lemma mean_minimal (evaluate : bool -> R -> R) : (forall i x label, evaluate (f i x) x <= evaluate label x) ->
    exists a b, evaluateMean evaluate scores p (length p) = Some a /\ evaluateMean evaluate scores labels (length labels) = Some b /\ a <= b.
  Proof.
    intros H. rewrite (evaluateMean_spec true evaluate scores p), (evaluateMean_spec true evaluate scores labels) by auto.
    eexists _, _. split; [reflexivity|]. split; [reflexivity|]. rewrite LP, LL. unfold Rdiv.
    destruct (length scores) as [|n] eqn:E; [simpl; lra|]. apply Rmult_le_compat_r.
    - left. apply Rinv_0_lt_compat. apply lt_0_INR. lia.
    - apply sumR_mono. intros i Hi. rewrite V by auto. auto.
  Qed.
End Minimal.

Lemma minimal_loss :
  forall e : R -> R, (forall x, x <= 0 -> e x = exp x) ->
  forall scores memory labels, length memory = length scores -> length labels = length scores ->
  let minimal evaluate threshold := exists prediction a b,
    predictOutputWise (discretizeByScore threshold) scores memory = Some prediction /\
    evaluate prediction = Some a /\ evaluate labels = Some b /\ a <= b in
  minimal (fun y => evaluateMean (evaluateLogistic e) scores y (length y)) defaultPredictionLogistic /\
  minimal (fun y => evaluateMean evaluateSquaredHinge scores y (length y)) defaultPredictionSquaredHinge /\
  minimal (fun y => evaluateMean evaluateSquaredErrorClassification scores y (length y)) defaultPredictionSquaredError /\
  minimal (fun y => evaluateLogisticND e scores y) defaultPredictionLogistic /\
  minimal (fun y => evaluateSquaredHingeND scores y) defaultPredictionSquaredHinge /\
  minimal (fun y => evaluateSquaredErrorND (fun label => label) scores y) defaultPredictionSquaredError.
Proof.
  intros e HE scores memory labels LM LL minimal. unfold minimal. clear minimal.
  destruct (dense_prediction (discretizeByScore defaultPredictionLogistic) scores memory LM) as (p1 & E1 & L1 & V1).
  destruct (dense_prediction (discretizeByScore defaultPredictionSquaredHinge) scores memory LM) as (p2 & E2 & L2 & V2).
  destruct (dense_prediction (discretizeByScore defaultPredictionSquaredError) scores memory LM) as (p3 & E3 & L3 & V3).
  split; [|split; [|split; [|split; [|split]]]].
  - exists p1. destruct (mean_minimal _ scores p1 labels L1 LL V1 (evaluateLogistic e)) as (a & b & A & B & C).
    + intros i x label. rewrite !logistic_evaluate by auto. apply ln_mono; [pose proof (exp_pos (- expected (discretizeByScore defaultPredictionLogistic i x) * x)); lra|].
      pose proof (logistic_choice label x i). lra.
    + exists a, b. auto.
  - exists p2. destruct (mean_minimal _ scores p2 labels L2 LL V2 evaluateSquaredHinge) as (a & b & A & B & C).
    + intros i x label. rewrite !hinge_evaluate. apply hinge_choice.
    + exists a, b. auto.
  - exists p3. destruct (mean_minimal _ scores p3 labels L3 LL V3 evaluateSquaredErrorClassification) as (a & b & A & B & C).
    + intros i x label. apply error_choice.
    + exists a, b. auto.
  - exists p1, (logisticLoss p1 scores), (logisticLoss labels scores). split; [auto|]. split; [apply evaluate_logistic_nd_form; auto|].
    split; [apply evaluate_logistic_nd_form; auto|]. unfold logisticLoss. rewrite L1, LL. apply ln_mono.
    + assert (0 <= sumR (length scores) (fun i => exp (- expected (nth i p1 true) * nth i scores 0))); [|lra].
      apply sumR_nonneg. intros i _. left. apply exp_pos.
    + apply Rplus_le_compat_l, sumR_mono. intros i Hi. rewrite V1 by auto. apply logistic_choice.
  - exists p2, (hingeLoss p2 scores), (hingeLoss labels scores). split; [auto|]. split; [apply hinge_evaluate_nd; auto|].
    split; [apply hinge_evaluate_nd; auto|]. unfold hingeLoss. rewrite L2, LL. apply sqrt_le_1_alt, sumR_mono. intros i Hi. rewrite V2 by auto. apply hinge_choice.
  - exists p3. eexists _, _. split; [auto|]. split; [apply (error_evaluate true); auto|]. split; [apply (error_evaluate true); auto|].
    unfold errorLoss. rewrite L3, LL. apply sqrt_le_1_alt, sumR_mono. intros i Hi. rewrite V3 by auto. apply error_choice.
Qed.

Lemma strictly_smaller_loss :
  forall e : R -> R, (forall x, x <= 0 -> e x = exp x) -> forall i x,
  (discretizeByScore defaultPredictionLogistic i x = true <-> evaluateLogistic e true x < evaluateLogistic e false x) /\
  (discretizeByScore defaultPredictionSquaredHinge i x = true <-> evaluateSquaredHinge true x < evaluateSquaredHinge false x) /\
  (discretizeByScore defaultPredictionSquaredError i x = true <->
     evaluateSquaredErrorClassification true x < evaluateSquaredErrorClassification false x).
Proof.
  intros e HE i x. unfold discretizeByScore. split; [|split].
  - rewrite !logistic_evaluate by auto. unfold defaultPredictionLogistic, expected. destruct (Rgt_dec x 0) as [C|C]; split; intros H; auto; try discriminate.
    + apply ln_increasing; [pose proof (exp_pos (- (1) * x)); lra|]. apply Rplus_lt_compat_l, exp_increasing. lra.
    + exfalso. apply ln_lt_inv in H; [|pose proof (exp_pos (- (1) * x)); lra|pose proof (exp_pos (- -1 * x)); lra].
      assert (H' : exp (- (1) * x) < exp (- -1 * x)) by lra. apply exp_lt_inv in H'. lra.
  - unfold defaultPredictionSquaredHinge, evaluateSquaredHinge. destruct (Rgt_dec x (1 / 2)) as [C|C]; split; intros H; auto; try discriminate.
    + destruct (Rlt_dec x 1), (Rgt_dec x 0); try lra; nra.
    + exfalso. destruct (Rlt_dec x 1), (Rgt_dec x 0); try lra; nra.
  - unfold defaultPredictionSquaredError, evaluateSquaredErrorClassification, evaluateSquaredErrorRegression.
    destruct (Rgt_dec x 0) as [C|C]; split; intros H; auto; try discriminate; [nra|exfalso; nra].
Qed.

Lemma probabilities_and_scores :
  forall e : R -> R, (forall x, x <= 0 -> e x = exp x) -> forall labelIndex score,
    discretizeByProbability e (fun _ p => p) labelIndex score = discretizeByScore defaultPredictionLogistic labelIndex score.
Proof.
  intros e HE i x. unfold discretizeByProbability, transformScoreIntoMarginalProbability, discretizeByScore, defaultPredictionLogistic.
  rewrite logistic_form by auto. pose proof (exp_pos (- x)) as P.
  assert (A : / (1 + exp (- x)) > 1 / 2 <-> x > 0).
  { split; intros H.
    - assert (B : exp (- x) < 1).
      { apply Rnot_le_lt. intros C. assert (/ (1 + exp (- x)) <= / 2) by (apply Rinv_le_contravar; lra). lra. }
      rewrite <- exp_0 in B. apply exp_lt_inv in B. lra.
    - assert (B : exp (- x) < 1) by (rewrite <- exp_0; apply exp_increasing; lra).
      assert (/ 2 < / (1 + exp (- x))) by (apply Rinv_lt_contravar; nra). lra. }
  destruct (Rgt_dec (/ (1 + exp (- x))) (1 / 2)), (Rgt_dec x 0); tauto.
Qed.
