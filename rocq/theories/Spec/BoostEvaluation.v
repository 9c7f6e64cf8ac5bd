(** What the scores predicted by rules of boosting algorithms should be. *)
From Coq Require Import QArith Qabs Reals Qreals List Bool Arith.
From Verif Require Import Spec.Stopping Model.BoostEvaluation.
Import ListNotations.
Open Scope Q_scope.

(** The second-order approximation of a loss function for a single output, including L1 and L2 regularisation. *)
Definition objective (l1 l2 : Q) (t : tuple) (score : Q) : Q :=
  fst t * score + (snd t + l2) / 2 * (score * score) + l1 * Qabs score.

(** The objective of predicting the given scores for the outputs at the given positions. *)
Definition headObjective (l1 l2 : Q) (statistics : list tuple) (positions : list nat) (values : list Q) : Q :=
  Qsum (map (fun p => objective l1 l2 (nth (fst p) statistics (0, 0)) (snd p)) (combine positions values)).

(** The positions of all outputs. *)
Definition everyPosition (statistics : list tuple) : list nat := seq 0 (length statistics).

(** The score of the output at a certain position. *)
Definition scoreAt (l1 l2 : Q) (statistics : list tuple) (position : nat) : Q :=
  calculateOutputWiseScore l1 l2 (nth position statistics (0, 0)).

(** A score vector predicts for the outputs at the given positions. *)
Definition predictsFor (l1 l2 : Q) (indices : list nat) (statistics : list tuple) (positions : list nat) (sc : scores) : Prop :=
  scIndices sc = map (fun p => nth p indices 0%nat) positions /\
  scValues sc = map (scoreAt l1 l2 statistics) positions /\
  scQuality sc == headObjective l1 l2 statistics positions (scValues sc).

(** A value is the smallest or the largest one. *)
Definition isMinimum (m : Q) (l : list Q) : Prop := In m l /\ Forall (Qle m) l.
Definition isMaximum (m : Q) (l : list Q) : Prop := In m l /\ Forall (fun x => x <= m) l.

(** The position of a value between the smallest and the largest one is, when raised to the power of an exponent, not below a
    limit. All values qualify if they are the same. *)
Definition qualifies (minimum maximum exponent limit value : Q) : Prop :=
  maximum == minimum \/
  (minimum < value /\ (Q2R limit <= Rpower (Q2R ((value - minimum) / (maximum - minimum))) (Q2R exponent))%R).

(** The condition that is documented for an output to be included in a head (include/mlrl/boosting/rule_evaluation/
    head_type_partial_dynamic.hpp, lines 37-42). *)
Definition documented (exponent threshold value best : Q) : Prop :=
  (Rpower (Q2R best) (Q2R exponent) * Q2R (1 - threshold) < Rpower (Q2R value) (Q2R exponent))%R.

(** The optimal score with L1 regularisation. *)
Definition softThreshold (l1 l2 gradient hessian : Q) : Q :=
  if Qlt_le_dec l1 gradient then (l1 - gradient) / (hessian + l2)
  else if Qlt_le_dec gradient (- l1) then (- l1 - gradient) / (hessian + l2) else 0.
