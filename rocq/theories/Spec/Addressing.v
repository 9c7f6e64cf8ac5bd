(** Specification of matrices, independent of how they are stored. *)
From Coq Require Import NArith Bool.
From Verif Require Import Model.Addressing.
Open Scope N_scope.

(** Each element at an index that satisfies [valid] can be read and modified. Modifying an element does not affect others. *)
Definition separate {V M I : Type} (valid : I -> Prop) (get : M -> I -> option V) (set : M -> I -> V -> option M) (m : M) : Prop :=
  (forall i, valid i -> exists v, get m i = Some v) /\
  (forall i v, valid i -> exists m', set m i v = Some m' /\ get m' i = Some v /\
     forall j, valid j -> j <> i -> get m' j = get m j).

(** The indices of the elements of a matrix. *)
Definition inMatrix (numRows numCols : N) (i : N * N) : Prop := fst i < numRows /\ snd i < numCols.

(** The indices of pairs of outputs, for each of several examples. Only one of [(i, j)] and [(j, i)] is considered. *)
Definition inTriangle (numRows numCols : N) (i : N * (N * N)) : Prop :=
  fst i < numRows /\ fst (snd i) < numCols /\ snd (snd i) <= fst (snd i).

(** The arrays [m] that are provided by a caller, where rows (or columns) are stored one after each other. [values] are the
    values of a matrix with the given number of rows and columns. *)
Definition storedByRow {V : Type} (numRows numCols : N) (values : N -> N -> V) (m : memory V) : Prop :=
  memSize m = numRows * numCols /\
  forall r c, r < numRows -> c < numCols -> memCells m (r * numCols + c) = values r c.

Definition storedByColumn {V : Type} (numRows numCols : N) (values : N -> N -> V) (m : memory V) : Prop :=
  memSize m = numRows * numCols /\
  forall r c, r < numRows -> c < numCols -> memCells m (c * numRows + r) = values r c.
