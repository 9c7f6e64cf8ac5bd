(** Specification of updating statistics in parallel. *)
From Coq Require Import ZArith NArith Arith List Bool Permutation.
From Verif Require Import Lib.Arr Model.SecoStatistics Spec.Seco.
Import ListNotations.
Open Scope nat_scope.

(** Each example is dealt with by exactly one thread. *)
Definition assigned (numExamples : nat) (assignment : list (list nat)) : Prop :=
  Permutation (seq 0 numExamples) (concat assignment).

(** The value [x] is between two others. *)
Definition between (a b x : Z) : Prop := (Z.min a b <= x <= Z.max a b)%Z.

(** A rule, which covers some examples and predicts differently from the default rule, covers a label of one of the given examples
    that has not been covered before. *)
Definition newlyCovered (numLabels : nat) (majority : list nat) (h : head) (coversExample : nat -> bool) (counts : list N)
    (examples : list nat) : Prop :=
  exists e l, In e examples /\ coversExample e = true /\ l < numLabels /\ covers majority (e, l) (e, h) = true /\
  nth (e * numLabels + l) counts 0%N = 0%N.
