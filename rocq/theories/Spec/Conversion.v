(** What is observable through a statistics provider. *)
From Coq Require Import Reals List Bool Arith Permutation.
From Verif Require Import Lib.Arr Model.BoostStatistics Model.Conversion Spec.BoostStatistics.
Import ListNotations.
Open Scope R_scope.

Definition matrix {A} (n m : nat) (rows : list (list A)) : Prop := length rows = n /\ Forall (fun row => length row = m) rows.
Definition triangles (n m : nat) (rows : list (list R * list R)) : Prop :=
  length rows = n /\ Forall (fun row => length (fst row) = m /\ length (snd row) = (m * (m + 1) / 2)%nat) rows.

(** The statistics that are currently provided: the scores, the gradient and the Hessian of a single output (the Hessian matrix is
    stored row by row, only its lower triangle is stored) and the object that evaluates rules. *)
Definition currentScores (p : provider) : option (list (list R)) :=
  match nonDecomposableStatistics p, decomposableStatistics p with
  | Some s, _ => Some (ndScores s)
  | None, Some s => Some (dScores s)
  | None, None => None
  end.
Definition currentStatistics (p : provider) (i j : nat) : option (R * R) :=
  match nonDecomposableStatistics p, decomposableStatistics p with
  | Some s, _ => match nth_error (ndRows s) i with
      | Some (gradients, hessians) =>
          match nth_error gradients j, nth_error hessians (j * (j + 1) / 2 + j) with Some g, Some h => Some (g, h) | _, _ => None end
      | None => None
      end
  | None, Some s => match nth_error (dRows s) i with Some row => nth_error row j | None => None end
  | None, None => None
  end.
Definition currentEvaluation (p : provider) : option ruleEvaluation :=
  match nonDecomposableStatistics p, decomposableStatistics p with
  | Some s, _ => Some (ndEvaluation s)
  | None, Some s => Some (dEvaluation s)
  | None, None => None
  end.

(** Events that may occur, given the numbers of examples and outputs. *)
Definition valid_event (n m : nat) (e : event) : Prop :=
  match e with
  | SwitchToRegular order memory | SwitchToPruning order memory => Permutation order (seq 0 n) /\ matrix n m memory
  | Change c => valid_change n m c
  end.

(** The rules that are applied or reverted. *)
Fixpoint changes (es : list event) : list scoreChange :=
  match es with
  | [] => []
  | Change c :: es => c :: changes es
  | _ :: es => changes es
  end.

(** The evaluation that has been requested most recently. *)
Fixpoint requested (es : list event) (d : ruleEvaluation) : ruleEvaluation :=
  match es with
  | [] => d
  | SwitchToRegular _ _ :: es => requested es RegularRuleEvaluation
  | SwitchToPruning _ _ :: es => requested es PruningRuleEvaluation
  | Change _ :: es => requested es d
  end.
