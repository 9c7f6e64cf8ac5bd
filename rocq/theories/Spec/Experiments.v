(** * Parameters, models and characteristics of data sets in experiments: specification *)

From Coq Require Import List Bool Arith ZArith QArith String Sorted.
From Verif Require Import Model.Testbed Model.Experiments.
Import ListNotations.
Open Scope nat_scope.

(** The value of a parameter, as documented: Values that are given via the command line take precedence over those in a file. *)
Inductive documentedValue (base : list (string * option string)) (file : list (string * string)) (k : string) : option string -> Prop :=
| FromCommandLine v : In (k, Some v) base -> documentedValue base file k (Some v)
| FromFile v : In (k, None) base -> In (k, v) file -> documentedValue base file k (Some v)
| Default : In (k, None) base -> ~ In k (map fst file) -> documentedValue base file k None.

(** The folds of a cross validation and the training examples that are used in a fold. *)
Definition foldsOf (runs : list (run nat)) : list (option nat) := map (fun r => Some (rfold r)) runs.
Definition trainingExamples (runs : list (run nat)) (fold : option nat) : list nat :=
  match fold with
  | Some f => match nth_error runs f with Some r => rtrain r | None => [] end
  | None => []
  end.

(** The value of an element in a row that only stores some elements. *)
Definition storedValue (row : list (nat * Z)) (j : nat) (v : Z) : Prop :=
  In (j, v) row \/ (v = 0%Z /\ ~ In j (map fst row)).

(** A dense and a sparse matrix have the same values. *)
Definition sameOutputs (numCols : nat) (dense : list (list Z)) (sparse : list (list (nat * Z))) : Prop :=
  Forall2 (fun d s => List.length d = numCols /\ forall j v, nth_error d j = Some v -> storedValue s j v) dense sparse.

(** The columns in a row are sorted and within the bounds. *)
Definition validOutputs (numCols : nat) (sparse : list (list (nat * Z))) : Prop :=
  Forall (fun s => StronglySorted lt (map fst s) /\ Forall (fun e => fst e < numCols) s) sparse.

(** Zeros are not stored. *)
Definition noZeros (sparse : list (list (nat * Z))) : Prop := Forall (Forall (fun e => snd e <> 0%Z)) sparse.

(** The number of relevant labels in a dense matrix, counted element by element. *)
Fixpoint numRelevant (l : list Z) : nat :=
  match l with [] => 0 | v :: l => if Z.eq_dec v 0 then numRelevant l else S (numRelevant l) end.

(** All elements are zero or one. *)
Definition binary (dense : list (list Z)) : Prop := Forall (Forall (fun v => v = 0%Z \/ v = 1%Z)) dense.

(** The average imbalance ratio [q], given the number of relevant examples of each label: The largest number is divided by the number of each
    label that is relevant to any examples. *)
Definition isImbalanceRatio (counts : list nat) (q : Q) : Prop :=
  exists largest, In largest counts /\ (forall n, In n counts -> n <= largest) /\
  let used := filter (fun n => negb (n =? 0)) counts in
  (q * inject_Z (Z.of_nat (List.length used))
   == fold_right (fun n sum => inject_Z (Z.of_nat largest) / inject_Z (Z.of_nat n) + sum) 0 used)%Q.
