(** Specification of the assignment of values to bins. *)
From Coq Require Import ZArith Arith List Bool Sorted.
From Verif Require Import Lib.Arr Model.Search Model.Filter Model.Binning Spec.Search.
Import ListNotations.
Open Scope nat_scope.

(** Enough memory for [numBins] bins and [numIndices] indices. *)
Definition allocated (junk : arrays) (numBins numIndices : nat) : Prop :=
  numBins - 1 <= length (aThresholds junk) /\ numIndices <= length (aIndices junk) /\
  numBins + 1 <= length (aIndptr junk).

(** The mean of two numbers separates them. *)
Definition separates (mean : Z -> Z -> Z) : Prop := forall a b, (a < b)%Z -> (a <= mean a b < b)%Z.

(** A bin holds fewer than [k] examples if those with the largest value are ignored. *)
Definition not_overfull (value : nat -> Z) (k : nat) (ids : list nat) : Prop :=
  exists m, (forall i, In i ids -> (value i <= m)%Z) /\ (ids = [] \/ exists i, In i ids /\ value i = m) /\
    length (filter (fun i => value i <? m)%Z ids) < k.

(** [bin] assigns values to bins in ascending order, and the examples that are stored in each bin are those whose value
    belongs to it. Those that belong to the sparse bin are not stored. *)
Definition ordered_bins (examples : list nat) (value : nat -> Z) (bins : list (list nat)) (sparseBin : nat)
  (bin : Z -> nat) : Prop :=
  NoDup (concat bins) /\ sparseBin < length bins /\
  (forall a b, (a <= b)%Z -> bin a <= bin b) /\
  (forall i, In i examples -> bin (value i) < length bins) /\
  (forall i p ids, nth_error bins p = Some ids ->
     (In i ids <-> In i examples /\ bin (value i) = p /\ p <> sparseBin)).
