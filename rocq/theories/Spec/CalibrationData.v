(** Definitions used to state which data calibration models are fitted to. *)
From Coq Require Import ZArith QArith Arith List Bool Sorted Permutation.
Import ListNotations.
Open Scope nat_scope.

(** A matrix with a certain number of rows and columns. *)
Definition has_shape {A} (numRows numCols : nat) (rows : list (list A)) : Prop :=
  length rows = numRows /\ Forall (fun row => length row = numCols) rows.

(** [marginal_observation zero one f labels scores j e b]: the bin [b] pairs the probability that results from the score
    of label [j] for example [e] with the ground truth. *)
Definition marginal_observation {V P} (zero one : P) (f : nat -> V -> P) (labels : list (list bool))
    (scores : list (list V)) (j e : nat) (b : P * P) : Prop :=
  exists labelRow scoreRow label score,
    nth_error labels e = Some labelRow /\ nth_error labelRow j = Some label /\
    nth_error scores e = Some scoreRow /\ nth_error scoreRow j = Some score /\
    b = (f j score, if label then one else zero).

(** The relevant labels of a row start with the labels of a label vector. *)
Definition starts_with (labelRow : list bool) (labelVector : list nat) : Prop :=
  exists relevant rest, relevant = labelVector ++ rest /\ Sorted.StronglySorted lt relevant /\
    forall j, In j relevant <-> nth_error labelRow j = Some true.

(** [joint_observation ...]: the bin [b] pairs the probability of the [i]-th label vector for example [e] with the outcome
    of the comparison of label vectors. *)
Definition joint_observation {V P} (zero one : P) (g : nat -> list nat -> V -> P) (labels : list (list bool))
    (scores : list V) (i : nat) (labelVector : list nat) (e : nat) (b : P * P) : Prop :=
  exists labelRow scoreRow truth,
    nth_error labels e = Some labelRow /\ nth_error scores e = Some scoreRow /\
    (truth = true <-> starts_with labelRow labelVector) /\
    b = (g i labelVector scoreRow, if truth : bool then one else zero).

(** A sparse row has at most one entry for each column. *)
Definition sparse_row {V} (numCols : nat) (row : list (nat * V)) : Prop :=
  NoDup (map fst row) /\ Forall (fun e => fst e < numCols) row.

(** The examples with (or without) an entry for label [j]. *)
Definition with_entry {V} (scores : list (list (nat * V))) (j : nat) (indices : list nat) : list nat :=
  filter (fun e => existsb (Nat.eqb j) (map fst (nth e scores []))) indices.
Definition without_entry {V} (scores : list (list (nat * V))) (j : nat) (indices : list nat) : list nat :=
  filter (fun e => negb (existsb (Nat.eqb j) (map fst (nth e scores [])))) indices.

(** The number of examples for which label [j] is relevant. *)
Definition relevant_count (labels : list (list bool)) (j : nat) (indices : list nat) : nat :=
  length (filter (fun e => nth j (nth e labels []) false) indices).

(** [sparse_observation ...]: as above, for a score that is stored in a sparse row. *)
Definition sparse_observation {V P} (zero one : P) (f : nat -> V -> P) (labels : list (list bool))
    (scores : list (list (nat * V))) (j e : nat) (b : P * P) : Prop :=
  exists labelRow scoreRow label score,
    nth_error labels e = Some labelRow /\ nth_error labelRow j = Some label /\
    nth_error scores e = Some scoreRow /\ In (j, score) scoreRow /\
    b = (f j score, if label then one else zero).

(** The fraction of examples without entry for which label [j] is relevant. *)
Definition relevant_fraction (labels : list (list bool)) (j : nat) (missing : list nat) (p : option Q) : Prop :=
  missing <> [] -> exists q, p = Some q /\
    (q * inject_Z (Z.of_nat (length missing)) == inject_Z (Z.of_nat (relevant_count labels j missing)))%Q.

(** A sparse row and a dense row contain the same values; missing values are zero. *)
Definition same_values (sparse : list (nat * Q)) (dense : list Q) : Prop :=
  NoDup (map fst sparse) /\
  forall j, j < length dense ->
    (forall v, In (j, v) sparse -> nth_error dense j = Some v) /\
    (~ In j (map fst sparse) -> nth_error dense j = Some 0%Q).

(** A function sorts bins by their thresholds. *)
Definition sorts (sort : list (Q * Q) -> list (Q * Q)) : Prop :=
  forall bins, Permutation.Permutation bins (sort bins) /\
    forall i j a b, i < j -> nth_error (sort bins) i = Some a -> nth_error (sort bins) j = Some b -> (fst a <= fst b)%Q.

(** Insertion sort, for examples. *)
Fixpoint insert_bin (x : Q * Q) (bins : list (Q * Q)) : list (Q * Q) :=
  match bins with
  | [] => [x]
  | b :: rest => if Qlt_le_dec (fst b) (fst x) then b :: insert_bin x rest else x :: bins
  end.
Definition insertion_sort : list (Q * Q) -> list (Q * Q) := fold_right insert_bin [].
