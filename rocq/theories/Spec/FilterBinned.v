(** Filtering binned feature vectors that do not store the examples in their sparse bin. *)
From Coq Require Import ZArith Arith List Bool.
From Verif Require Import Model.Filter Spec.Filter.
Import ListNotations.
Open Scope nat_scope.

(** Whether the value of an example is greater than the threshold preceding the bin [first] and not greater than the one
    following the bin [last - 1]. *)
Definition between_thresholds (thresholds : list Z) (first last : nat) (value : Z) : bool :=
  match first with
  | 0 => true
  | S q => match nth_error thresholds q with Some t => (t <? value)%Z | None => false end
  end &&
  match last with
  | 0 => false
  | S q => match nth_error thresholds q with Some t => (value <=? t)%Z | None => true end
  end.
