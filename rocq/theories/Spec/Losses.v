(** What the gradients and Hessians of loss functions should be. *)
From Coq Require Import Reals List Arith.
From Verif Require Import Lib.Arr.
Import ListNotations.
Open Scope R_scope.

(** The sum of the values of a function for 0, ..., n - 1. *)
Fixpoint sumR (n : nat) (f : nat -> R) : R :=
  match n with O => 0 | S n => sumR n f + f n end.

(** A function of one variable and its first and second derivative. *)
Definition firstDerivative (f : R -> R) (x d : R) : Prop := derivable_pt_lim f x d.
Definition secondDerivative (f : R -> R) (x d : R) : Prop :=
  exists f' delta, 0 < delta /\ (forall y, Rabs (y - x) < delta -> derivable_pt_lim f y (f' y)) /\ derivable_pt_lim f' x d.

(** The partial derivative of a function of several scores with respect to one of them. *)
Definition partialDerivative (f : list R -> R) (scores : list R) (c : nat) (d : R) : Prop :=
  derivable_pt_lim (fun x => f (upd scores c x)) (nth c scores 0) d.

(** The second partial derivative: the function is differentiated with respect to [c] and the result, as a function of the score
    of [r], with respect to [r]. *)
Definition partialDerivative2 (f : list R -> R) (scores : list R) (r c : nat) (d : R) : Prop :=
  exists f' delta, 0 < delta /\
    (forall y, Rabs (y - nth r scores 0) < delta -> partialDerivative f (upd scores r y) c (f' y)) /\
    derivable_pt_lim f' (nth r scores 0) d.

(** A function is computed by a program. *)
Definition computes (n : nat) (evaluate : list R -> option R) (f : list R -> R) : Prop :=
  forall scores, length scores = n -> evaluate scores = Some (f scores).

(** The expected score of a label and the (hinge) distance from it. *)
Definition expected (label : bool) : R := if label then 1 else -1.

(** The label-wise squared hinge loss. *)
Definition hinge (label : bool) (x : R) : R :=
  if label then Rmax (1 - x) 0 * Rmax (1 - x) 0 else Rmax x 0 * Rmax x 0.

(** The score of an output does not attain the margin. *)
Definition violatesMargin (label : bool) (x : R) : Prop := if label then x < 1 else 0 < x.
