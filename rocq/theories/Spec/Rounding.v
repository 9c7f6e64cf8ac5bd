(** Specification of values that are computed without rounding errors. *)
From Coq Require Import ZArith List.
From Verif Require Import Model.Rounding.
Import ListNotations.
Open Scope Z_scope.

(** The exact effect of an operation, and of several operations. *)
Definition effect (o : operation) : Z :=
  match o with Add x => x | Remove x => - x | AddWeighted x weight => x * weight | RemoveWeighted x weight => - (x * weight) end.
Definition total (l : list Z) : Z := fold_right Z.add 0 l.
Definition exact (history : list operation) : Z := total (map effect history).

(** The sum of the absolute values of all values that are added or removed. *)
Definition volume (history : list operation) : Z := total (map (fun o => Z.abs (effect o)) history).

(** The number of roundings. *)
Definition roundings (history : list operation) : Z :=
  total (map (fun o => match o with Add _ | Remove _ => 1 | _ => 2 end) history).

(** All values that are added or removed sum up to at most half of [2^magnitude], which does not exceed the range of the type
    [float64], and their number is not astronomically large. The unit in the last place of a value close to [2^magnitude] is
    [2^(magnitude - 53)], i.e., a single rounding error amounts to no more than [2^(magnitude - 54)]. *)
Definition moderate (magnitude volume roundings : Z) : Prop :=
  55 <= magnitude <= 2099 /\ volume <= 2 ^ (magnitude - 1) /\ roundings < 2 ^ 53.

(** The value [y] differs from the value [x] by no more than the given number of rounding errors. *)
Definition accurate (magnitude errors : Z) (y x : Z) : Prop := Z.abs (y - x) <= errors * 2 ^ (magnitude - 54).

(** The predictions of rules that are added to a score, and those that are removed again. *)
Definition applied (history : list operation) : list Z :=
  flat_map (fun o => match o with Add x => [x] | _ => [] end) history.
Definition reverted (history : list operation) : list Z :=
  flat_map (fun o => match o with Remove x => [x] | _ => [] end) history.
Definition unweighted (history : list operation) : Prop :=
  Forall (fun o => match o with Add _ | Remove _ => True | _ => False end) history.

(** The removal of a statistic that has been added before. *)
Definition inverse (o : operation) : operation :=
  match o with
  | Add x => Remove x
  | Remove x => Add x
  | AddWeighted x weight => RemoveWeighted x weight
  | RemoveWeighted x weight => AddWeighted x weight
  end.

(** The values that are representable with type [float64]. *)
Definition isFloat64 (z : Z) : Prop := exists k e, z = k * 2 ^ e /\ Z.abs k < 2 ^ 53 /\ 1 <= e /\ Z.abs z < 2 ^ 2099.

(** All operations add a positive value. *)
Definition allPositive (history : list operation) : Prop :=
  Forall (fun o => match o with Add x => isFloat64 x /\ 0 < x | _ => False end) history.
