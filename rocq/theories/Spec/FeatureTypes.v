(** Specification of the creation of feature vectors. *)
From Coq Require Import ZArith Arith List Bool Permutation Sorted.
From Verif Require Import Model.Filter Model.FeatureTypes Spec.Filter.
Import ListNotations.
Open Scope nat_scope.

(** The values of a feature according to a dense matrix. *)
Definition denseColumn (values : list value32) : column := fun i => nth i values None.

(** The values of a feature according to a sparse matrix. *)
Definition sparseColumn (sparseValue : Z) (elements : list element) : column := fun i =>
  match find (fun e => fst e =? i) elements with Some e => snd e | None => Some sparseValue end.

(** The nominal values that correspond to numbers. The digits after the decimal point are ignored. *)
Definition truncated (col : column) : column := fun i =>
  match col i with Some x => Some (Z.quot x (2 ^ 149)) | None => None end.

(** The number corresponds to a 32-bit integer, once the digits after the decimal point are ignored. *)
Definition fitsInt32 (x : Z) : Prop := (- 2 ^ 31 <= Z.quot x (2 ^ 149) < 2 ^ 31)%Z.

Definition allFit (values : list value32) : Prop := forall x, In (Some x) values -> fitsInt32 x.

(** There is at most one value per row. *)
Definition wellFormed (numRows : nat) (elements : list element) : Prop :=
  NoDup (map fst elements) /\ (forall e, In e elements -> fst e < numRows).

(** All of the given examples that have a value have the same one. *)
Definition constant (col : column) (examples : list nat) : Prop :=
  forall i j x y, In i examples -> In j examples -> col i = Some x -> col j = Some y -> x = y.

(** The smallest and the largest of the values the given examples have are considered to be equal. *)
Definition indistinct (isEqual : Z -> Z -> bool) (col : column) (examples : list nat) : Prop :=
  forall i j x y, In i examples -> In j examples -> col i = Some x -> col j = Some y ->
    (forall k z, In k examples -> col k = Some z -> (x <= z <= y)%Z) -> isEqual x y = true.

(** The outcome of sorting by values. *)
Definition sortsPairs (sort : list (nat * Z) -> list (nat * Z)) : Prop :=
  forall l, Permutation (sort l) l /\ StronglySorted Z.le (map snd (sort l)).
Definition sortsValues (sort : list Z -> list Z) : Prop :=
  forall l, Permutation (sort l) l /\ StronglySorted Z.le (sort l).

(** The number of examples that have a value. *)
Definition frequency (col : column) (examples : list nat) (v : Z) : nat :=
  length (filter (fun i => match col i with Some x => (x =? v)%Z | None => false end) examples).

(** No value that is stored explicitly corresponds to the same nominal value as the sparse value. *)
Definition noExplicitSparseValues (sparseValue : Z) (elements : list element) : Prop :=
  forall i x, In (i, Some x) elements -> Z.quot x (2 ^ 149) <> Z.quot sparseValue (2 ^ 149).

(** The number of different values the given examples have. *)
Definition numDistinct (col : column) (examples : list nat) : nat :=
  length (nodup Z.eq_dec (map (valueOf col) (valued col examples))).

(** The type of the vector that is created for a feature with the given number of different values. *)
Definition kindOf (ordinal : bool) (numValues : nat) (vec : fvec) : Prop :=
  match vec with
  | EqualVec => numValues <= 1
  | NominalVec Binary _ _ _ _ => numValues = 2
  | NominalVec k _ _ _ _ => 2 < numValues /\ k = if ordinal then Ordinal else Nominal
  | _ => False
  end.
