(** Specification of the search for conditions. *)
From Coq Require Import ZArith Arith List Bool Sorted.
From Verif Require Import Lib.Arr Model.Search.
Import ListNotations.
Open Scope nat_scope.

(** Whether a feature value satisfies a condition. *)
Definition holds (t : test) (f : Z) : bool :=
  match t with
  | Eq v => (f =? v)%Z
  | Neq v => negb (f =? v)%Z
  | Leq v => (f <=? v)%Z
  | Gr v => (v <? f)%Z
  | LeqMean a b => (2 * f <=? a + b)%Z
  | GrMean a b => (a + b <? 2 * f)%Z
  end.

(** The scores of a condition are calculated from the statistics of exactly those of the given examples that have a
    non-zero weight and satisfy it, and the number of covered examples is their number. *)
Definition exactly_scored (examples : list nat) (weight : nat -> bool) (value : nat -> Z) (e : evaluated) : Prop :=
  NoDup (eScored e) /\
  (forall i, In i (eScored e) <-> In i examples /\ weight i = true /\ holds (eTest e) (value i) = true) /\
  eCovered e = length (eScored e).

(** The example is stored at one of the positions [start], ..., [end_ - 1]. *)
Definition stored_between (bins : list (list nat)) (start end_ : nat) (i : nat) : Prop :=
  exists p ids, start <= p < end_ /\ nth_error bins p = Some ids /\ In i ids.

(** The interval of positions (or its complement) consists of exactly the examples that satisfy the condition. *)
Definition exact_interval (examples : list nat) (value : nat -> Z) (bins : list (list nat)) (e : evaluated) : Prop :=
  forall i, In i examples ->
    (holds (eTest e) (value i) = true <->
     if eInverse e then ~ stored_between bins (eStart e) (eEnd e) i else stored_between bins (eStart e) (eEnd e) i).

Definition exact (examples : list nat) (weight : nat -> bool) (value : nat -> Z) (bins : list (list nat))
  (e : evaluated) : Prop :=
  exactly_scored examples weight value e /\ exact_interval examples value bins e.

(** The number of examples with non-zero weights that satisfy a condition. *)
Definition support (examples : list nat) (weight : nat -> bool) (value : nat -> Z) (t : test) : nat :=
  length (filter (fun i => weight i && holds t (value i)) examples).

(** A condition that selects the same examples as [t] is evaluated. *)
Definition considered (examples : list nat) (value : nat -> Z) (t : test) (l : list evaluated) : Prop :=
  exists e, In e l /\ forall i, In i examples -> holds (eTest e) (value i) = holds t (value i).

(** The positions hold different examples. *)
Definition bins_of (examples : list nat) (bins : list (list nat)) : Prop :=
  NoDup examples /\ NoDup (concat bins) /\ incl (concat bins) examples.

(** A nominal feature vector: the examples with each minority value, all other ones have the majority value. *)
Definition nominal_vector (examples : list nat) (value : nat -> Z) (values : list Z) (bins : list (list nat))
  (majority : Z) : Prop :=
  bins_of examples bins /\ length values = length bins /\ NoDup (majority :: values) /\
  (forall p ids v i, nth_error bins p = Some ids -> nth_error values p = Some v -> In i ids -> value i = v) /\
  (forall i, In i examples -> ~ In i (concat bins) -> value i = majority).

(** An ordinal one is sorted. *)
Definition ordinal_vector (examples : list nat) (value : nat -> Z) (values : list Z) (bins : list (list nat))
  (majority : Z) : Prop :=
  nominal_vector examples value values bins majority /\ StronglySorted Z.lt values.

(** A numerical feature vector: pairs of examples and values, sorted by value. If it is sparse, all other examples have
    the sparse value, otherwise there are none. *)
Definition numerical_vector (examples : list nat) (value : nat -> Z) (v : list (nat * Z)) (sparseValue : Z)
  (sparse : bool) : Prop :=
  NoDup examples /\ NoDup (map fst v) /\ incl (map fst v) examples /\
  StronglySorted Z.le (map snd v) /\
  (forall i z, In (i, z) v -> value i = z) /\
  (forall i, In i examples -> ~ In i (map fst v) -> sparse = true /\ value i = sparseValue).

(** Its positions. *)
Definition positions (v : list (nat * Z)) : list (list nat) := map (fun x => [fst x]) v.

(** A binned feature vector: the examples in each bin, and the thresholds between neighbouring bins. Some or all of the
    examples in the sparse bin are not stored. *)
Definition binned_vector (examples : list nat) (value : nat -> Z) (thresholds : list Z) (bins : list (list nat))
  (sparseBin : nat) : Prop :=
  bins_of examples bins /\ StronglySorted Z.lt thresholds /\ length bins = S (length thresholds) /\
  sparseBin < length bins /\
  (forall i, In i examples -> exists p, p < length bins /\
     (forall t, nth_error thresholds p = Some t -> (value i <= t)%Z) /\
     (forall t q, p = S q -> nth_error thresholds q = Some t -> (t < value i)%Z) /\
     (p <> sparseBin -> stored_between bins p (S p) i) /\
     (p = sparseBin -> forall q ids, nth_error bins q = Some ids -> In i ids -> q = p)).

(** Conditions with the threshold [z] separate examples with non-zero weights. *)
Definition separating (examples : list nat) (weight : nat -> bool) (value : nat -> Z) (z : Z) : Prop :=
  (exists i, In i examples /\ weight i = true /\ (value i <= z)%Z) /\
  (exists i, In i examples /\ weight i = true /\ (z < value i)%Z).

(** The outermost bins on both sides of the majority value contain an example with a non-zero weight. *)
Definition outermost (weight : nat -> bool) (values : list Z) (bins : list (list nat)) (majority : Z) : Prop :=
  (forall v ids, nth_error values 0 = Some v -> (v < majority)%Z -> nth_error bins 0 = Some ids ->
     exists i, In i ids /\ weight i = true) /\
  (forall v ids, nth_error values (length values - 1) = Some v -> (majority < v)%Z ->
     nth_error bins (length values - 1) = Some ids -> exists i, In i ids /\ weight i = true).

(** The number of stored values that are less than the sparse value. *)
Definition less_than_sparse (v : list (nat * Z)) (sparseValue : Z) : nat :=
  length (filter (fun x => (snd x <? sparseValue)%Z) v).
