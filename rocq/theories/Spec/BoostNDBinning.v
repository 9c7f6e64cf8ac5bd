(** What gradient-based label binning should guarantee, if non-decomposable loss functions are used. *)
From Coq Require Import QArith Qabs List Bool Arith.
From Verif Require Import Model.BoostEvaluation Model.BoostNonDecomposable Spec.BoostNonDecomposable.
Import ListNotations.
Open Scope Q_scope.

(** Two outputs are assigned to the same bin. *)
Definition sameBin (bins : list (option nat)) (i j : nat) : bool :=
  match nth i bins None, nth j bins None with
  | Some k, Some l => (k =? l)%nat
  | _, _ => false
  end.

(** The part of the second-order approximation that results from the Hessians of different outputs in the same bin. *)
Definition interactions (hessians : list Q) (bins : list (option nat)) (values : list Q) : Q :=
  sumQ (length bins) (fun i => sumQ i (fun j =>
    if sameBin bins i j then hessianAt hessians i j * (nth i values 0 * nth j values 0) else 0)).

(** The Hessians of different outputs in the same bin are zero. *)
Definition independentBins (hessians : list Q) (bins : list (option nat)) : Prop :=
  forall i j, (j < i)%nat -> (i < length bins)%nat -> sameBin bins i j = true -> hessianAt hessians i j == 0.

(** A solver that always succeeds. *)
Definition totalSolver (dsysv : solver) : Prop :=
  forall n coefficients ordinates, (n * n <= length coefficients)%nat -> length ordinates = n -> dsysv n coefficients ordinates <> None.
