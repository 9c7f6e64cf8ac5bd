(** What is expected of sampled features. *)
From Coq Require Import NArith QArith Arith List.
Import ListNotations.
Open Scope nat_scope.

(** A sample of [k] distinct features in addition to the last [r] ones. *)
Definition valid_sample (numFeatures k r : nat) (sample : list nat) : Prop :=
  NoDup sample /\ length sample = k + r /\ (forall i, In i sample -> i < numFeatures) /\
  (forall i, numFeatures - r <= i < numFeatures -> In i sample).
