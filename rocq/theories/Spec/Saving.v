(** * Data sets that are saved to ARFF files: specification *)

From Coq Require Import List Arith ZArith QArith.
Import ListNotations.
Open Scope nat_scope.

(** The examples in a data set with integer outputs between 0 and 255. Zeros are represented uniquely. *)
Definition validExamples (numFeatures numOutputs : nat) (examples : list (list Q * list Z)) : Prop :=
  forall x y, In (x, y) examples -> List.length x = numFeatures /\ List.length y = numOutputs /\
    (forall q, In q x -> (q == 0)%Q -> q = 0%Q) /\ forall z, In z y -> (0 <= z < 256)%Z.

(** The last output is relevant to some example, and the last example has a value that is not zero. *)
Definition lastUsed (numOutputs : nat) (examples : list (list Q * list Z)) : Prop :=
  (exists x y z, In (x, y) examples /\ nth_error y (numOutputs - 1) = Some z /\ z <> 0%Z) /\
  exists l x y, examples = l ++ [(x, y)] /\ ((exists q, In q x /\ ~ (q == 0)%Q) \/ exists z, In z y /\ z <> 0%Z).
