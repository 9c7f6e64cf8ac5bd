(** Properties of loss functions. *)
From Coq Require Import Reals List Bool Arith Lia Lra.
From Verif Require Import Lib.Arr Model.Losses Spec.Losses Proofs.Losses.
Import ListNotations.
Open Scope R_scope.

(** ** C64: Logistic function is a proper probability *)
(** It suffices that [e] is the exponential function of values that are not positive. Hence, no overflow occurs. *)
Theorem C64_logistic_function : forall e : R -> R, (forall x, x <= 0 -> e x = exp x) ->
  forall x, logisticFunction e x = 1 / (1 + exp (- x)) /\ 0 < logisticFunction e x < 1 /\
    logisticFunction e (- x) = 1 - logisticFunction e x /\ (forall y, x < y -> logisticFunction e x < logisticFunction e y).
Proof. exact logistic_function. Qed.
Print Assumptions C64_logistic_function.

Example C64_logistic_function_example : (forall x, x <= 0 -> (fun x => if Rle_dec x 0 then exp x else 0) x = exp x) /\
  logisticFunction (fun x => if Rle_dec x 0 then exp x else 0) 0 = 1 / 2.
Proof.
  split; [intros x Hx; cbv beta; destruct (Rle_dec x 0); [reflexivity|contradiction]|].
  unfold logisticFunction. destruct (Rlt_dec 0 0); [lra|]. destruct (Rle_dec (- 0) 0); [|lra]. rewrite Ropp_0, exp_0. lra.
Qed.

(** ** C65: Loss gradients and Hessians are the derivatives of the loss
    Missing: this holds only for logistic losses. The gradients and Hessians of the decomposable squared hinge loss and squared
    error are half as large as the derivatives. The Hessian of squared hinge losses is one, where their second derivative is zero. *)
(** Decomposable logistic loss. *)
Theorem C65_logistic_partial : forall e : R -> R, (forall x, x <= 0 -> e x = exp x) -> forall label score,
    evaluateLogistic e label score = ln (1 + exp (- expected label * score)) /\
    firstDerivative (evaluateLogistic e label) score (fst (updateLogistic e label score)) /\
    secondDerivative (evaluateLogistic e label) score (snd (updateLogistic e label score)).
Proof. exact logistic_loss. Qed.
Print Assumptions C65_logistic_partial.

Example C65_logistic_partial_example : (forall x, x <= 0 -> exp x = exp x) /\ updateLogistic exp true 0 = (1 / 2 - 1, 1 / 2 - 1 / 4).
Proof.
  split; [auto|]. unfold updateLogistic, logisticFunction, squaredLogisticFunction. destruct (Rlt_dec 0 0); [lra|].
  rewrite Ropp_0, exp_0. f_equal; lra.
Qed.

(** Decomposable squared hinge loss. *)
Theorem C65_squared_hinge_partial : forall label score,
    evaluateSquaredHinge label score = hinge label score /\
    firstDerivative (evaluateSquaredHinge label) score (2 * fst (updateSquaredHinge label score)) /\
    (violatesMargin label score -> secondDerivative (evaluateSquaredHinge label) score (2 * snd (updateSquaredHinge label score))).
Proof. exact squared_hinge_loss. Qed.
Print Assumptions C65_squared_hinge_partial.

Example C65_squared_hinge_partial_example : violatesMargin true 0 /\ updateSquaredHinge true 0 = (0 - 1, 1).
Proof. split; [simpl; lra|]. unfold updateSquaredHinge. destruct (Rlt_dec 0 1); [reflexivity|lra]. Qed.

(** Decomposable squared error loss. *)
Theorem C65_squared_error_partial : forall score,
    (forall truth : R,
       evaluateSquaredErrorRegression truth score = (truth - score) * (truth - score) /\
       firstDerivative (evaluateSquaredErrorRegression truth) score (2 * fst (updateSquaredErrorRegression truth score)) /\
       secondDerivative (evaluateSquaredErrorRegression truth) score (2 * snd (updateSquaredErrorRegression truth score))) /\
    (forall label : bool,
       evaluateSquaredErrorClassification label score = (expected label - score) * (expected label - score) /\
       firstDerivative (evaluateSquaredErrorClassification label) score (2 * fst (updateSquaredErrorClassification label score)) /\
       secondDerivative (evaluateSquaredErrorClassification label) score (2 * snd (updateSquaredErrorClassification label score))).
Proof. exact squared_error_loss. Qed.
Print Assumptions C65_squared_error_partial.

Example C65_squared_error_partial_example : updateSquaredErrorRegression 3 5 = (5 - 3, 1).
Proof. reflexivity. Qed.

(** The decomposable losses of an example are averaged over the outputs. *)
Theorem C65_evaluation_partial : forall (T : Type) (d : T) (evaluate : T -> R -> R) scores (truth : list T), length scores = length truth ->
    evaluateMean evaluate scores truth (length truth) =
      Some (sumR (length truth) (fun i => evaluate (nth i truth d) (nth i scores 0)) / INR (length truth)).
Proof. exact evaluation_mean. Qed.
Print Assumptions C65_evaluation_partial.

Example C65_evaluation_partial_example : length [1; 2] = length [true; false] /\
  evaluateMean evaluateSquaredErrorClassification [1; 2] [true; false] 2 =
    Some (0 + ((1 - 1) * (1 - 1) - 0) / INR 1 + ((-1 - 2) * (-1 - 2) - (0 + ((1 - 1) * (1 - 1) - 0) / INR 1)) / INR 2).
Proof. split; reflexivity. Qed.

(** The gradients and Hessians of all outputs are updated. *)
Theorem C65_complete_update_partial : forall (T : Type) (d : T) (update : T -> R -> R * R) scores (truth : list T) gradients hessians n,
    length scores = n -> length truth = n -> length gradients = n -> length hessians = n ->
    exists gradients' hessians', updateComplete update scores truth n gradients hessians = Some (gradients', hessians') /\
      length gradients' = n /\ length hessians' = n /\
      forall j, (j < n)%nat -> (nth j gradients' 0, nth j hessians' 0) = update (nth j truth d) (nth j scores 0).
Proof. exact complete_update. Qed.
Print Assumptions C65_complete_update_partial.

Example C65_complete_update_partial_example :
  updateComplete updateSquaredErrorRegression [3; 5] [1; 1] 2 [0; 0] [0; 0] = Some ([3 - 1; 5 - 1], [1; 1]).
Proof. reflexivity. Qed.

(** Non-decomposable logistic loss. Hessians are stored row by row. *)
Theorem C65_non_decomposable_logistic_partial : forall e : R -> R, (forall x, x <= 0 -> e x = exp x) -> forall labels scores gradients hessians n,
    length labels = n -> length scores = n -> length gradients = n -> length hessians = (n * (n + 1) / 2)%nat ->
    let f s := ln (1 + sumR n (fun i => exp (- expected (nth i labels true) * nth i s 0))) in
    computes n (fun s => evaluateLogisticND e s labels) f /\
    exists gradients' hessians', updateLogisticND e scores labels gradients hessians = Some (gradients', hessians') /\
      length gradients' = n /\ length hessians' = (n * (n + 1) / 2)%nat /\
      forall c, (c < n)%nat -> partialDerivative f scores c (nth c gradients' 0) /\
        forall r, (r <= c)%nat -> partialDerivative2 f scores r c (nth (c * (c + 1) / 2 + r) hessians' 0).
Proof. exact non_decomposable_logistic_loss. Qed.
Print Assumptions C65_non_decomposable_logistic_partial.

(** Non-decomposable logistic loss, if only the diagonal of the Hessian matrix is used. *)
Theorem C65_non_decomposable_logistic_diagonal_partial : forall e : R -> R, (forall x, x <= 0 -> e x = exp x) -> forall labels scores gradients hessians n,
    length labels = n -> length scores = n -> length gradients = n -> length hessians = n ->
    let f s := ln (1 + sumR n (fun i => exp (- expected (nth i labels true) * nth i s 0))) in
    exists gradients' hessians', updateDecomposableLogisticND e scores labels gradients hessians = Some (gradients', hessians') /\
      length gradients' = n /\ length hessians' = n /\
      forall c, (c < n)%nat -> partialDerivative f scores c (nth c gradients' 0) /\ partialDerivative2 f scores c c (nth c hessians' 0).
Proof. exact non_decomposable_logistic_loss_diagonal. Qed.
Print Assumptions C65_non_decomposable_logistic_diagonal_partial.

Example C65_non_decomposable_logistic_partial_example : (forall x, x <= 0 -> exp x = exp x) /\
  length [true; false] = 2%nat /\ length [3; -1] = 2%nat /\ length [0; 0] = 2%nat /\ length [0; 0; 0] = (2 * (2 + 1) / 2)%nat.
Proof. repeat split. Qed.

(** Non-decomposable squared hinge loss. *)
Theorem C65_non_decomposable_squared_hinge_partial : forall labels scores gradients hessians n,
    length labels = n -> length scores = n -> length gradients = n -> length hessians = (n * (n + 1) / 2)%nat ->
    let f s := sqrt (sumR n (fun i => hinge (nth i labels true) (nth i s 0))) in
    computes n (fun s => evaluateSquaredHingeND s labels) f /\
    (0 < f scores -> exists gradients' hessians', updateSquaredHingeND scores labels gradients hessians = Some (gradients', hessians') /\
      length gradients' = n /\ length hessians' = (n * (n + 1) / 2)%nat /\
      forall c, (c < n)%nat -> partialDerivative f scores c (nth c gradients' 0) /\
        (violatesMargin (nth c labels true) (nth c scores 0) -> partialDerivative2 f scores c c (nth (c * (c + 1) / 2 + c) hessians' 0)) /\
        (nth c gradients' 0 = 0 \/ / 2 ^ 52 < Rabs (nth c gradients' 0) ->
         forall r, (r < c)%nat -> partialDerivative2 f scores r c (nth (c * (c + 1) / 2 + r) hessians' 0))).
Proof. exact non_decomposable_squared_hinge_loss. Qed.
Print Assumptions C65_non_decomposable_squared_hinge_partial.

(** Non-decomposable squared hinge loss, if only the diagonal of the Hessian matrix is used. *)
Theorem C65_non_decomposable_squared_hinge_diagonal_partial : forall labels scores gradients hessians n,
    length labels = n -> length scores = n -> length gradients = n -> length hessians = n ->
    let f s := sqrt (sumR n (fun i => hinge (nth i labels true) (nth i s 0))) in
    0 < f scores -> exists gradients' hessians', updateDecomposableSquaredHingeND scores labels gradients hessians = Some (gradients', hessians') /\
      length gradients' = n /\ length hessians' = n /\
      forall c, (c < n)%nat -> partialDerivative f scores c (nth c gradients' 0) /\
        (violatesMargin (nth c labels true) (nth c scores 0) -> partialDerivative2 f scores c c (nth c hessians' 0)).
Proof. exact non_decomposable_squared_hinge_loss_diagonal. Qed.
Print Assumptions C65_non_decomposable_squared_hinge_diagonal_partial.

Example C65_non_decomposable_squared_hinge_partial_example : length [0; 0; 0] = (2 * (2 + 1) / 2)%nat /\
  0 < sqrt (sumR 2 (fun i => hinge (nth i [true; false] true) (nth i [0; -1] 0))) /\ violatesMargin true 0.
Proof.
  split; [reflexivity|]. split; [|simpl; lra]. simpl. rewrite (Rmax_left (1 - 0) 0), (Rmax_right (-1) 0) by lra. apply sqrt_lt_R0. lra.
Qed.

(** Non-decomposable squared error loss of classification problems. *)
Theorem C65_non_decomposable_squared_error_partial : forall labels scores gradients hessians n,
    length labels = n -> length scores = n -> length gradients = n -> length hessians = (n * (n + 1) / 2)%nat ->
    let f s := sqrt (sumR n (fun i => (expected (nth i labels true) - nth i s 0) * (expected (nth i labels true) - nth i s 0))) in
    computes n (fun s => evaluateSquaredErrorND (fun label => label) s labels) f /\
    (0 < f scores -> exists gradients' hessians',
      updateSquaredErrorND binaryConversionFunction scores labels gradients hessians = Some (gradients', hessians') /\
      length gradients' = n /\ length hessians' = (n * (n + 1) / 2)%nat /\
      forall c, (c < n)%nat -> partialDerivative f scores c (nth c gradients' 0) /\
        forall r, (r <= c)%nat -> partialDerivative2 f scores r c (nth (c * (c + 1) / 2 + r) hessians' 0)).
Proof. exact non_decomposable_squared_error_loss. Qed.
Print Assumptions C65_non_decomposable_squared_error_partial.

(** Non-decomposable squared error loss of classification problems, if only the diagonal of the Hessian matrix is used. *)
Theorem C65_non_decomposable_squared_error_diagonal_partial : forall labels scores gradients hessians n,
    length labels = n -> length scores = n -> length gradients = n -> length hessians = n ->
    let f s := sqrt (sumR n (fun i => (expected (nth i labels true) - nth i s 0) * (expected (nth i labels true) - nth i s 0))) in
    0 < f scores -> exists gradients' hessians',
      updateDecomposableSquaredErrorND (fun label => label) scores labels gradients hessians = Some (gradients', hessians') /\
      length gradients' = n /\ length hessians' = n /\
      forall c, (c < n)%nat -> partialDerivative f scores c (nth c gradients' 0) /\ partialDerivative2 f scores c c (nth c hessians' 0).
Proof. exact non_decomposable_squared_error_loss_diagonal. Qed.
Print Assumptions C65_non_decomposable_squared_error_diagonal_partial.

Example C65_non_decomposable_squared_error_partial_example : length [0; 0; 0] = (2 * (2 + 1) / 2)%nat /\
  0 < sqrt (sumR 2 (fun i => (expected (nth i [true; false] true) - nth i [0; -1] 0) * (expected (nth i [true; false] true) - nth i [0; -1] 0))).
Proof. split; [reflexivity|]. simpl. apply sqrt_lt_R0. lra. Qed.

(** The gradient of the decomposable squared hinge loss is not its derivative. *)
Theorem C65_squared_hinge_gradient_refuted : exists label score, evaluateSquaredHinge label score = hinge label score /\
    ~ firstDerivative (evaluateSquaredHinge label) score (fst (updateSquaredHinge label score)).
Proof. exact squared_hinge_gradient_refuted. Qed.
Print Assumptions C65_squared_hinge_gradient_refuted.

(** The Hessian of the decomposable squared hinge loss is one, although its second derivative is zero. *)
Theorem C65_squared_hinge_hessian_refuted : exists label score, secondDerivative (evaluateSquaredHinge label) score 0 /\ snd (updateSquaredHinge label score) = 1.
Proof. exact squared_hinge_hessian_refuted. Qed.
Print Assumptions C65_squared_hinge_hessian_refuted.

(** The gradient of the decomposable squared error loss is not its derivative. *)
Theorem C65_squared_error_gradient_refuted : exists truth score, ~ firstDerivative (evaluateSquaredErrorRegression truth) score (fst (updateSquaredErrorRegression truth score)).
Proof. exact squared_error_gradient_refuted. Qed.
Print Assumptions C65_squared_error_gradient_refuted.

(** A Hessian of the non-decomposable squared hinge loss is one, although the second derivative is zero. *)
Theorem C65_non_decomposable_squared_hinge_refuted : exists labels scores gradients' hessians' c,
    0 < sqrt (sumR 2 (fun i => hinge (nth i labels true) (nth i scores 0))) /\
    updateSquaredHingeND scores labels [0; 0] [0; 0; 0] = Some (gradients', hessians') /\ (c < 2)%nat /\
    partialDerivative2 (fun s => sqrt (sumR 2 (fun i => hinge (nth i labels true) (nth i s 0)))) scores c c 0 /\
    nth (c * (c + 1) / 2 + c) hessians' 0 = 1.
Proof. exact non_decomposable_squared_hinge_hessian_refuted. Qed.
Print Assumptions C65_non_decomposable_squared_hinge_refuted.

(** ** C99: The non-decomposable squared error measures the distance to the ground truth
    Missing: this does not hold for regression problems unless the ground truth is 1 or -1. *)
Theorem C99_update_partial : forall truth scores gradients hessians n,
    length truth = n -> length scores = n -> length gradients = n -> length hessians = (n * (n + 1) / 2)%nat ->
    (forall t, In t truth -> t = 1 \/ t = -1) ->
    let f s := sqrt (sumR n (fun i => (nth i truth 0 - nth i s 0) * (nth i truth 0 - nth i s 0))) in
    0 < f scores -> exists gradients' hessians',
      updateSquaredErrorND scoreConversionFunction scores truth gradients hessians = Some (gradients', hessians') /\
      length gradients' = n /\ length hessians' = (n * (n + 1) / 2)%nat /\
      forall c, (c < n)%nat -> partialDerivative f scores c (nth c gradients' 0) /\
        forall r, (r <= c)%nat -> partialDerivative2 f scores r c (nth (c * (c + 1) / 2 + r) hessians' 0).
Proof. exact regression_update. Qed.
Print Assumptions C99_update_partial.

Example C99_update_partial_example : (forall t, In t [1; -1] -> t = 1 \/ t = -1) /\
  0 < sqrt (sumR 2 (fun i => (nth i [1; -1] 0 - nth i [3; 4] 0) * (nth i [1; -1] 0 - nth i [3; 4] 0))).
Proof. split; [intros t [<-|[<-|[]]]; auto|]. simpl. apply sqrt_lt_R0. lra. Qed.

(** The loss of a perfect prediction is positive. *)
Theorem C99_evaluation_refuted : exists truth scores loss, scores = truth /\ evaluateSquaredErrorND floatToBool scores truth = Some loss /\ 0 < loss.
Proof. exact regression_evaluation_refuted. Qed.
Print Assumptions C99_evaluation_refuted.

(** A gradient is five times as large as the derivative. *)
Theorem C99_gradient_refuted : exists truth scores gradients' hessians',
    updateSquaredErrorND scoreConversionFunction scores truth [0] [0] = Some (gradients', hessians') /\ nth 0 gradients' 0 = -5 /\
    forall d, partialDerivative (fun s => sqrt (sumR 1 (fun i => (nth i truth 0 - nth i s 0) * (nth i truth 0 - nth i s 0)))) scores 0 d -> d = -1.
Proof. exact regression_gradient_refuted. Qed.
Print Assumptions C99_gradient_refuted.

(** A gradient has the wrong sign. *)
Theorem C99_gradient_sign_refuted : exists truth scores gradients' hessians',
    updateDecomposableSquaredErrorND floatToBool scores truth [0] [0] = Some (gradients', hessians') /\ nth 0 gradients' 0 = 1 /\
    forall d, partialDerivative (fun s => sqrt (sumR 1 (fun i => (nth i truth 0 - nth i s 0) * (nth i truth 0 - nth i s 0)))) scores 0 d -> d = -1.
Proof. exact regression_gradient_sign_refuted. Qed.
Print Assumptions C99_gradient_sign_refuted.

(** ** C100: Updating the statistics of a subset of the outputs affects exactly these outputs
    Missing: this does not hold for regression problems. *)
(** Classification problems. *)
Theorem C100_partial_update_partial : forall (T : Type) (d : T) (update : T -> R -> R * R) scores (truth : list T) indices gradients hessians n,
    length scores = n -> length truth = n -> length gradients = n -> length hessians = n -> Forall (fun i => (i < n)%nat) indices ->
    exists gradients' hessians', updatePartial update scores truth indices gradients hessians = Some (gradients', hessians') /\
      length gradients' = n /\ length hessians' = n /\
      forall j, (j < n)%nat ->
        (nth j gradients' 0, nth j hessians' 0) =
          (if in_dec Nat.eq_dec j indices then update (nth j truth d) (nth j scores 0) else (nth j gradients 0, nth j hessians 0)).
Proof. exact partial_update. Qed.
Print Assumptions C100_partial_update_partial.

Example C100_partial_update_partial_example : Forall (fun i => (i < 2)%nat) [1%nat] /\
  updatePartial updateSquaredErrorClassification [3; 5] [true; false] [1%nat] [7; 7] [8; 8] = Some ([7; 5 - -1], [8; 1]).
Proof. split; [repeat constructor|reflexivity]. Qed.

(** Regression problems: the first outputs are updated instead of the given ones. *)
Theorem C100_regression_refuted : exists scores truth indices gradients hessians n gradients' hessians',
    length scores = n /\ length truth = n /\ length gradients = n /\ length hessians = n /\ Forall (fun i => (i < n)%nat) indices /\
    updatePartialRegression updateSquaredErrorRegression scores truth indices gradients hessians = Some (gradients', hessians') /\
    (exists j, In j indices /\ nth j gradients' 0 <> fst (updateSquaredErrorRegression (nth j truth 0) (nth j scores 0))) /\
    (exists j, ~ In j indices /\ nth j gradients' 0 <> nth j gradients 0).
Proof. exact partial_update_regression_refuted. Qed.
Print Assumptions C100_regression_refuted.

(** ** C101: Hessians of the logistic loss are correct for scores of any magnitude *)
(** If exponentials of values below -746 are rounded to zero (as in IEEE 754 double precision), a Hessian is zero, although the derivative is less than -1/9. *)
Theorem C101_underflow_refuted : let e x := if Rlt_dec x (-746) then 0 else exp x in
  exists labels scores gradients' hessians' d,
    updateLogisticND e scores labels [0; 0] [0; 0; 0] = Some (gradients', hessians') /\
    partialDerivative2 (fun s => ln (1 + sumR 2 (fun i => exp (- expected (nth i labels true) * nth i s 0)))) scores 0 1 d /\
    nth 1 hessians' 0 = 0 /\ d < -1 / 9.
Proof. exact logistic_underflow_refuted. Qed.
Print Assumptions C101_underflow_refuted.
