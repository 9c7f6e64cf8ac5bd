(** What transformations of scores should do. *)
From Coq Require Import QArith List Bool Arith.
From Verif Require Import Lib.Arr.
Import ListNotations.
Open Scope nat_scope.

(** The indices of the labels that are predicted as relevant. *)
Definition relevant_labels (prediction : list bool) : list nat :=
  filter (fun label => nth label prediction false) (seq 0 (length prediction)).

(** A transformation that overwrites a row with the labels [f scores], and one that appends the indices of relevant labels. *)
Definition writes_labels {V} (numLabels : nat) (f : list V -> list bool) (apply : list V -> list bool -> option (list bool)) : Prop :=
  forall scores prediction, length scores = numLabels -> length prediction = numLabels ->
    apply scores prediction = Some (f scores).
Definition appends_labels {V} (numLabels : nat) (f : list V -> list bool) (apply : list V -> list nat -> option (list nat)) : Prop :=
  forall scores row, length scores = numLabels -> apply scores row = Some (row ++ relevant_labels (f scores)).

(** [count] cells of a memory that start at an address. *)
Definition cells {A} (memory : list A) (start count : nat) (row : list A) : Prop :=
  start + count <= length memory /\ length row = count /\
  forall i, i < count -> nth_error memory (start + i) = nth_error row i.

(** A transformation that writes the values [f scores] to the cells that start at [target], if the scores are stored in the cells
    that start at [source]. The cells may be the same, but must not overlap otherwise. Others are not changed. *)
Definition writes_probabilities (numLabels : nat) (f : list Q -> list Q) (apply : nat -> nat -> list Q -> option (list Q)) : Prop :=
  forall memory source target scores,
    cells memory source numLabels scores -> target + numLabels <= length memory ->
    source = target \/ source + numLabels <= target \/ target + numLabels <= source ->
    exists memory', apply source target memory = Some memory' /\ length memory' = length memory /\
      cells memory' target numLabels (f scores) /\
      forall k, k < target \/ target + numLabels <= k -> nth_error memory' k = nth_error memory k.
