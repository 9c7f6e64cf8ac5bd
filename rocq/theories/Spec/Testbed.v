(** * Data sets, cross validation and reports of the testbed: specification *)

From Coq Require Import List Bool Arith ZArith QArith String.
From Verif Require Import Model.Testbed.
Import ListNotations.
Open Scope nat_scope.

(** The names of all attributes in a file. *)
Definition names (f : arff) : list string := map fst (attributes f).

Definition numRowsOf (f : arff) : nat :=
  match data f with DenseRows l => List.length l | SparseRows l => List.length l end.

(** The value of an attribute in a row of a file: In the sparse format, values that are not given are zero. *)
Definition isCell (f : arff) (row a : nat) (v : cell) : Prop :=
  match data f with
  | DenseRows l => exists r, nth_error l row = Some r /\ nth_error r a = Some v
  | SparseRows l => exists r, nth_error l row = Some r /\ a < List.length (attributes f) /\
                    (In (a, v) r \/ (v = Some 0%Q /\ ~ In a (map fst r)))
  end.

(** The values of all attributes are given. *)
Definition validRows (f : arff) : Prop :=
  match data f with
  | DenseRows l => Forall (fun r => List.length r = List.length (attributes f)) l
  | SparseRows l => Forall (fun r => NoDup (map fst r) /\ Forall (fun e => fst e < List.length (attributes f)) r) l
  end.

(** In the sparse format, the last row is not empty and the last attribute is given in some row. *)
Definition lastGiven (f : arff) : Prop :=
  match data f with
  | DenseRows _ => True
  | SparseRows l => (exists l' r, l = l' ++ [r] /\ r <> []) /\
                    exists r a, In r l /\ In a (map fst r) /\ S a = List.length (attributes f)
  end.

(** The outputs that are declared by the XML file or, if it is not available, by the relation. *)
Definition declares (f : arff) (xml : option (list string)) (outs : list string) : Prop :=
  match xml with
  | Some l => l = outs
  | None => relation f = Some (Z.of_nat (List.length outs)) /\ exists rest, names f = outs ++ rest
  end.

(** The outputs are located at the start or the end, in the same order as they are declared. *)
Definition located (f : arff) (feats outs : list string) : Prop :=
  names f = outs ++ feats \/ names f = feats ++ outs.

(** The type of a feature corresponds to the type of an attribute. *)
Inductive corresponds : atype -> featureType -> Prop :=
| CNominal values : corresponds (NominalAttribute values) NOMINAL
| CInteger : corresponds IntegerAttribute ORDINAL
| CReal : corresponds RealAttribute NUMERICAL
| CNumeric : corresponds NumericAttribute NUMERICAL.

Definition supportedTypes (f : arff) (outs : list string) : Prop :=
  forall name t, In (name, t) (attributes f) -> ~ In name outs -> t <> StringAttribute.

(** The element of a matrix. *)
Definition isElement {A} (m : list (list A)) (i j : nat) (v : A) : Prop :=
  exists r, nth_error m i = Some r /\ nth_error r j = Some v.

(** The features and outputs are those in a file. Outputs must be integers that can be represented by the type [uint8]. *)
Definition correctMatrices (f : arff) (feats outs : list string) (x : list (list cell)) (y : list (list (option Z))) : Prop :=
  List.length x = numRowsOf f /\ List.length y = numRowsOf f /\
  Forall (fun r => List.length r = List.length feats) x /\ Forall (fun r => List.length r = List.length outs) y /\
  (forall e a i name v, nth_error (names f) a = Some name -> nth_error feats i = Some name -> isCell f e a v ->
    isElement x e i v) /\
  (forall e a l name z, nth_error (names f) a = Some name -> nth_error outs l = Some name -> isCell f e a (Some (inject_Z z)) ->
    (0 <= z < 256)%Z -> isElement y e l (Some z)).

(** The number of positive predictions. *)
Definition numPositive (scores : list Q) : nat :=
  List.length (filter (fun s => if Qlt_le_dec 0 s then true else false) scores).

Definition numNonPositive (scores : list Q) : nat :=
  List.length (filter (fun s => if Qlt_le_dec 0 s then false else true) scores).

(** The averages among the results that are written. *)
Definition averages {S} (l : list (written S)) : list (nat * list S) :=
  flat_map (fun w => match w with Average size scores => [(size, scores)] | FoldResult _ _ _ => [] end) l.

(** The results for individual folds among the results that are written. *)
Definition foldResults {S} (l : list (written S)) : list (nat * nat * S) :=
  flat_map (fun w => match w with Average _ _ => [] | FoldResult fold size score => [(fold, size, score)] end) l.

(** The number of milliseconds a unit corresponds to. *)
Definition millisOf (u : unit_) : Z :=
  match u with Days => 86400000 | Hours => 3600000 | Minutes => 60000 | Seconds => 1000 | Milliseconds => 1 end.

Definition totalMillis (l : list (Z * unit_)) : Z := fold_right Z.add 0%Z (map (fun p => (fst p * millisOf (snd p))%Z) l).

(** A number does not exceed the next larger unit. *)
Definition bounded (p : Z * unit_) : Prop :=
  match snd p with
  | Days => True
  | Hours => (fst p < 24)%Z
  | Minutes | Seconds => (fst p < 60)%Z
  | Milliseconds => (fst p < 1000)%Z
  end.
