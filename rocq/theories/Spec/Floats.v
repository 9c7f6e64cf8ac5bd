(** Definitions that are used for stating properties of thresholds. *)
From Coq Require Import ZArith.
From Verif Require Import Model.Floats.
Open Scope Z_scope.

(** [z * 2^-1075] is a finite value of type [float32], i.e., of the form [k * 2^e], where [k] has at most 24 digits and [e] is at
    least -149, and its absolute value is less than [2^128]. *)
Definition isFloat32 (z : Z) : Prop :=
  exists k e, z = k * 2 ^ e /\ Z.abs k < 2 ^ 24 /\ 926 <= e /\ Z.abs z < range32.

(** The smaller value satisfies a condition that uses the operator [<=], the larger one satisfies a condition that uses the
    operator [>]. *)
Definition separates (threshold : float) (small large : Z) : Prop :=
  leqb (Finite small) threshold = true /\ gtb (Finite large) threshold = true.

(** The difference of two values is finite. *)
Definition differenceIsFinite (small large : Z) : Prop := exists d, sub round32 (Finite large) (Finite small) = Finite d.
