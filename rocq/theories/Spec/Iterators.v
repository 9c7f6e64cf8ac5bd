(** Specification of random access iterators: they behave like pointers to the elements of an array. *)
From Coq Require Import NArith ZArith Bool List.
From Verif Require Import Model.Iterators.
Open Scope N_scope.

(** An iterator that has been incremented [k] times. *)
Definition at_ {It V : Type} (ops : operators It V) (first : It) (k : N) : It :=
  N.iter k (fun it => fst (preIncrement ops it)) first.

(** [n] elements are provided by the iterator that is given by [first]. *)
Definition readsElements {It V : Type} (ops : operators It V) (first : It) (n : N) (element : N -> V) : Prop :=
  forall k, k < n -> dereference ops (at_ ops first k) = Some (element k).

(** Array access, if the iterator has been incremented [j] times. *)
Definition accessesElements {It V : Type} (ops : operators It V) (first : It) (n : N) (element : N -> V) (j : N) : Prop :=
  forall k, j + k < n -> subscript ops (at_ ops first j) k = Some (element (j + k)).

(** The effects of incrementing and decrementing an iterator. *)
Definition moves {It V : Type} (ops : operators It V) (first : It) (n : N) : Prop :=
  forall k, k < n ->
  fst (preIncrement ops (at_ ops first k)) = at_ ops first (k + 1) /\
  fst (postIncrement ops (at_ ops first k)) = at_ ops first (k + 1) /\
  fst (preDecrement ops (at_ ops first (k + 1))) = at_ ops first k /\
  fst (postDecrement ops (at_ ops first (k + 1))) = at_ ops first k.

(** The result of a prefix operator is the modified iterator, the one of a postfix operator the original iterator. *)
Definition returnsPrefix {It V : Type} (ops : operators It V) (first : It) (n : N) : Prop :=
  forall k, k < n ->
  snd (preIncrement ops (at_ ops first k)) = at_ ops first (k + 1) /\
  snd (preDecrement ops (at_ ops first (k + 1))) = at_ ops first k.

Definition returnsPostfix {It V : Type} (ops : operators It V) (first : It) (n : N) : Prop :=
  forall k, k < n ->
  snd (postIncrement ops (at_ ops first k)) = at_ ops first k /\
  snd (postDecrement ops (at_ ops first (k + 1))) = at_ ops first (k + 1).

(** Comparisons and distances. *)
Definition compares {It V : Type} (ops : operators It V) (first : It) (n : N) : Prop :=
  forall j k, j <= n -> k <= n ->
  equal ops (at_ ops first j) (at_ ops first k) = (j =? k) /\
  notEqual ops (at_ ops first j) (at_ ops first k) = negb (j =? k).

Definition measures {It V : Type} (ops : operators It V) (first : It) (n : N) : Prop :=
  forall j k, j <= n -> k <= n ->
  difference ops (at_ ops first j) (at_ ops first k) = Some (Z.of_N j - Z.of_N k)%Z.

(** The elements at positions 0, ..., n - 1. *)
Definition elements {V : Type} (n : N) (element : N -> V) : list V :=
  map (fun k => element (N.of_nat k)) (seq 0 (N.to_nat n)).

(** Both kinds of loops visit each element exactly once and in order. *)
Definition visitsAll {It V : Type} (ops : operators It V) (first last : It) (n : N) (element : N -> V) : Prop :=
  forall prefix fuel, (N.to_nat n <= fuel)%nat -> traverse ops prefix fuel first last = Some (elements n element).
