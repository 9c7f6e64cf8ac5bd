(** What the scores predicted by rules of boosting algorithms with non-decomposable loss functions should be. *)
From Coq Require Import QArith Qabs List Bool Arith.
From Verif Require Import Spec.Stopping Model.BoostEvaluation Model.BoostNonDecomposable.
Import ListNotations.
Open Scope Q_scope.

(** The sum of the values of a function for 0, ..., n - 1. *)
Definition sumQ (n : nat) (f : nat -> Q) : Q := Qsum (map f (seq 0 n)).

(** The gradient of an output, the Hessian of two outputs. *)
Definition gradientAt (gradients : list Q) (p : nat) : Q := nth p gradients 0.
Definition hessianAt (hessians : list Q) (r c : nat) : Q := nth (triangularNumber (Nat.max r c) + Nat.min r c) hessians 0.

(** The second-order approximation of the loss function, including L1 and L2 regularisation, if the given scores are predicted for
    the outputs at the given positions. *)
Definition quadratic (l1 l2 : Q) (gradients hessians : list Q) (positions : list nat) (values : list Q) : Q :=
  let n := length positions in
  let p i := nth i positions 0%nat in
  let x i := nth i values 0 in
  sumQ n (fun i => gradientAt gradients (p i) * x i + l1 * Qabs (x i) + l2 / 2 * (x i * x i)) +
  (1 # 2) * sumQ n (fun i => sumQ n (fun j => hessianAt hessians (p i) (p j) * (x i * x j))).

(** A matrix is positive semi-definite. *)
Definition positiveSemidefinite (n : nat) (a : nat -> nat -> Q) : Prop :=
  forall x : nat -> Q, 0 <= sumQ n (fun i => sumQ n (fun j => a i j * (x i * x j))).

(** The Hessians with the L2 regularisation weight added to the diagonal. *)
Definition regularised (l2 : Q) (hessians : list Q) (r c : nat) : Q :=
  hessianAt hessians r c + (if (r =? c)%nat then l2 else 0).

(** A solution of a system of equations with a symmetric matrix, whose upper triangle is given in column-major order. *)
Definition solves (n : nat) (coefficients ordinates values : list Q) : Prop :=
  length values = n /\
  forall r, (r < n)%nat ->
    sumQ n (fun c => nth (Nat.max r c * n + Nat.min r c) coefficients 0 * nth c values 0) == nth r ordinates 0.

(** DSYSV computes solutions, unless it fails. *)
Definition validSolver (dsysv : solver) : Prop :=
  forall n coefficients ordinates values, dsysv n coefficients ordinates = Some values -> solves n coefficients ordinates values.

(** A solver that verifies a given solution (used by examples). *)
Definition checked (values : list Q) : solver := fun n coefficients ordinates =>
  if (length values =? n)%nat && forallb (fun r =>
    Qeq_bool (sumQ n (fun c => nth (Nat.max r c * n + Nat.min r c) coefficients 0 * nth c values 0)) (nth r ordinates 0)) (seq 0 n)
  then Some values else None.

(** There are gradients and Hessians for a number of outputs. *)
Definition wellFormed (n : nat) (indices : list nat) (gradients hessians tmp : list Q) : Prop :=
  length indices = n /\ length gradients = n /\ length hessians = triangularNumber n /\ length tmp = (n * n)%nat.

(** The score vector predicts optimal scores. *)
Definition optimal (l1 l2 : Q) (gradients hessians : list Q) (positions : list nat) (values : list Q) : Prop :=
  forall values', length values' = length positions ->
  quadratic l1 l2 gradients hessians positions values <= quadratic l1 l2 gradients hessians positions values'.

(** The Hessians of two different outputs are zero. *)
Definition diagonalHessians (n : nat) (hessians : list Q) : Prop :=
  forall r c, (r < n)%nat -> (c < n)%nat -> r <> c -> hessianAt hessians r c == 0.
