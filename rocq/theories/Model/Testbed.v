(** * Data sets, cross validation and reports of the testbed

    Model of parts of python/subprojects/testbed/mlrl/testbed: data.py (loading data sets), data_splitting.py (cross validation),
    evaluation.py and output_writer.py (results of evaluations), model_characteristics.py (statistics about models) and format.py (textual
    representations of durations).

    Simplifications: The content of ARFF and XML files is given as the data structures that are returned by the libraries used for parsing
    them, where the names of attributes do not contain quotes or white space at their beginnings and ends. Numbers are rational numbers,
    missing values are given as [None]. Rounding numbers to single precision is omitted. *)

From Coq Require Import List Bool Arith ZArith QArith Qround String.
From Verif Require Import Lib.Arr.
Import ListNotations.
Open Scope nat_scope.

(** ** Data sets *)

Notation cell := (option Q).

(** The type of an attribute in an ARFF file. *)
Inductive atype := NominalAttribute (values : list string) | IntegerAttribute | RealAttribute | NumericAttribute | StringAttribute.

(** The rows in an ARFF file, using the dense or the sparse format. *)
Inductive rows := DenseRows (r : list (list cell)) | SparseRows (r : list (list (nat * cell))).

(** The content of an ARFF file: the number after "-C" in the declaration of the relation, if available, the names and types of attributes,
    and the rows. *)
Record arff := Arff { relation : option Z; attributes : list (string * atype); data : rows }.

(** data.py, lines 28-34. *)
Inductive featureType := NUMERICAL | ORDINAL | NOMINAL.

(** data.py, lines 62-75. *)
Record metaData := MetaData { features : list (string * featureType); outputs : list string; outputsAtStart : bool }.

(** The value of an element in a row that uses the sparse format. *)
Fixpoint lookup (row : list (nat * cell)) (c : nat) : cell :=
  match row with
  | [] => Some 0%Q
  | (c', v) :: row => if c' =? c then v else lookup row c
  end.

(** The row and column indices of all elements in rows that use the sparse format. *)
Fixpoint sparseIndices (r : nat) (l : list (list (nat * cell))) : list (nat * nat) :=
  match l with [] => [] | row :: l => map (fun e => (r, fst e)) row ++ sparseIndices (S r) l end.

(** data.py, lines 368-394: the matrix that stores the values in an ARFF file, given as a list of rows. The outcome [None] corresponds to
    an exception. *)
Definition loadArff (f : arff) : option (list (list cell)) :=
  match data f with
  | SparseRows l =>
      match sparseIndices 0 l with
      | [] => None
      | indices =>
          let numRows := list_max (map fst indices) + 1 in
          let numCols := list_max (map snd indices) + 1 in
          Some (map (fun row => map (lookup row) (seq 0 numCols)) (firstn numRows l))
      end
  | DenseRows l => Some l
  end.

(** data.py, lines 424-440. *)
Definition parseOutputsFromRelation (f : arff) : option (list string) :=
  let* numOutputs := relation f in
  forL (seq 0 (Z.to_nat numOutputs)) (fun i l => let* a := aget (attributes f) i in Some (l ++ [fst a])) [].

(** Whether a name is contained in a set of names. *)
Definition isIn (name : string) (names : list string) : bool := existsb (String.eqb name) names.

(** data.py, lines 462-474. *)
Definition featureTypeOf (t : atype) : option featureType :=
  match t with
  | NominalAttribute _ => Some NOMINAL
  | IntegerAttribute => Some ORDINAL
  | RealAttribute | NumericAttribute => Some NUMERICAL
  | StringAttribute => None
  end.

(** data.py, lines 443-481. *)
Definition createMetaData (attrs : list (string * atype)) (outs : list string) : option metaData :=
  let* st := forL attrs (fun a (st : list (string * featureType) * bool) =>
    if negb (isIn (fst a) outs) then
      let* t := featureTypeOf (snd a) in Some (fst st ++ [(fst a, t)], snd st)
    else if List.length (fst st) =? 0 then Some (fst st, true)
    else Some st) ([], false) in
  Some {| features := fst st; outputs := outs; outputsAtStart := snd st |}.

(** Slicing in Python: the number of elements before the given, possibly negative index. *)
Definition sliceIndex (n : nat) (i : Z) : nat :=
  if (i <? 0)%Z then Z.to_nat (Z.of_nat n + i) else Nat.min n (Z.to_nat i).
Definition sliceTo {A} (stop : Z) (l : list A) : list A := firstn (sliceIndex (List.length l) stop) l.
Definition sliceFrom {A} (start : Z) (l : list A) : list A := skipn (sliceIndex (List.length l) start) l.

(** The conversion of a number into the type [uint8]; the outcome [None] is a value that is not specified. *)
Definition toUint8 (v : cell) : option Z :=
  match v with
  | Some q => let z := Z.quot (Qnum q) (Zpos (Qden q)) in if ((0 <=? z) && (z <? 256))%Z then Some z else None
  | None => None
  end.

(** data.py, lines 341-365. *)
Definition createFeatureAndOutputMatrix (m : list (list cell)) (meta : metaData) : list (list cell) * list (list (option Z)) :=
  let numOutputs := Z.of_nat (List.length (outputs meta)) in
  let x := if outputsAtStart meta then map (sliceFrom numOutputs) m else map (sliceTo (- numOutputs)) m in
  let y := if outputsAtStart meta then map (sliceTo numOutputs) m else map (sliceFrom (- numOutputs)) m in
  (x, map (map toUint8) y).

(** data.py, lines 106-144, where [xml] contains the names of outputs in the XML file, if available. *)
Definition loadDataSetAndMetaData (f : arff) (xml : option (list string))
  : option (list (list cell) * list (list (option Z)) * metaData) :=
  let* m := loadArff f in
  let* outs := (match xml with Some outs => Some outs | None => parseOutputsFromRelation f end) in
  let* meta := createMetaData (attributes f) outs in
  Some (createFeatureAndOutputMatrix m meta, meta).

(** data.py, lines 147-169. *)
Definition loadDataSet (f : arff) (meta : metaData) : option (list (list cell) * list (list (option Z))) :=
  let* m := loadArff f in Some (createFeatureAndOutputMatrix m meta).

(** ** Cross validation *)

(** The call of a method that trains and evaluates a model: the fold, the training and test examples and whether it is the last fold. *)
Record run (E : Type) := Run { rfold : nat; rtrain : list E; rtest : list E; rlast : bool }.
Arguments Run {E}. Arguments rfold {E}. Arguments rtrain {E}. Arguments rtest {E}. Arguments rlast {E}.

(** data_splitting.py, lines 147-148. *)
Definition isLastFold (numFolds fold : nat) (currentFold : Z) : bool :=
  (currentFold <? 0)%Z && (fold =? numFolds - 1).

(** data_splitting.py, lines 410-461, where [d] contains the examples in the files that correspond to individual folds. *)
Definition predefinedCrossValidation {E} (d : list (list E)) (currentFold : Z) : option (list (run E)) :=
  let numFolds := List.length d in
  let start := if (currentFold <? 0)%Z then 0 else Z.to_nat currentFold in
  let stop := if (currentFold <? 0)%Z then numFolds else Z.to_nat currentFold + 1 in
  forL (seq start (stop - start)) (fun fold runs =>
    let* train := forL (seq 0 numFolds) (fun other train =>
      if negb (other =? fold) then let* l := aget d other in Some (train ++ l) else Some train) [] in
    let* test := aget d fold in
    Some (runs ++ [Run fold train test (isLastFold numFolds fold currentFold)])) [].

(** The sizes of the folds that are created by the class [KFold] of scikit-learn. *)
Definition foldSize (n numFolds fold : nat) : nat := n / numFolds + (if fold <? n mod numFolds then 1 else 0).

(** The test sets that are created by the class [KFold], given the permutation of indices that has been drawn randomly. *)
Fixpoint testSets (n numFolds fold : nat) (remaining : nat) (perm : list nat) : list (list nat) :=
  match remaining with
  | 0 => []
  | S remaining =>
      let size := foldSize n numFolds fold in
      firstn size perm :: testSets n numFolds (S fold) remaining (skipn size perm)
  end.

(** data_splitting.py, lines 463-492. Both, the indices of training and test examples, are sorted.
    The class [KFold] raises an exception if there are fewer examples than folds. *)
Definition crossValidation {E} (examples : list E) (numFolds : nat) (perm : list nat) (currentFold : Z) : option (list (run E)) :=
  let n := List.length examples in
  if n <? numFolds then None else
  let pick (f : nat -> bool) := forL (filter f (seq 0 n)) (fun i l => let* e := aget examples i in Some (l ++ [e])) [] in
  forL (combine (seq 0 numFolds) (testSets n numFolds 0 numFolds perm)) (fun ft runs =>
    let (fold, testSet) := ft : nat * list nat in
    if ((currentFold <? 0)%Z || (Z.of_nat fold =? currentFold)%Z) then
      let inTest i := existsb (Nat.eqb i) testSet in
      let* train := pick (fun i => negb (inTest i)) in
      let* test := pick inTest in
      Some (runs ++ [Run fold train test (isLastFold numFolds fold currentFold)])
    else Some runs) [].

(** ** Results of evaluations *)

(** A result that is written: the score of the model that has been trained in a fold, or the scores that are averaged across all folds,
    together with the size of the model that is reported. *)
Inductive written (S : Type) := FoldResult (fold size : nat) (score : S) | Average (size : nat) (scores : list S).
Arguments FoldResult {S}. Arguments Average {S}.

(** evaluation.py, lines 214-230: The score of a fold is replaced. The number of folds does not change. *)
Definition put {S} (results : option (list (option S))) (numFolds fold : nat) (score : S) : option (list (option S)) :=
  let results := match results with None => repeat None numFolds | Some r => r end in
  aset results fold (Some score).

(** evaluation.py, line 271: the scores that are averaged. *)
Definition available {S} (results : list (option S)) : list S :=
  flat_map (fun o => match o with Some s => [s] | None => [] end) results.

(** The evaluation of the predictions for a fold (evaluation.py, lines 344-357, 367-380 and 400-411), which have been obtained from models
    of different sizes in case of an incremental evaluation (experiments.py, lines 203-226). A single measure is considered. *)
Definition evaluateFold {S} (numFolds fold : nat) (isLast : bool) (scores : list (nat * S))
  (st : option (list (option S)) * list (written S)) : option (option (list (option S)) * list (written S)) :=
  forL scores (fun ss st =>
    let (size, score) := ss : nat * S in
    let* results := put (fst st) numFolds fold score in
    let out := snd st ++ [FoldResult fold size score] in
    Some (Some results, if isLast then out ++ [Average size (available results)] else out)) st.

(** The evaluation of all folds of a cross validation, given the scores of the models that are trained in each fold. *)
Definition evaluateFolds {S} (scores : list (list (nat * S))) : option (list (written S)) :=
  let numFolds := List.length scores in
  let* st := forL (combine (seq 0 numFolds) scores) (fun fs st =>
    let (fold, l) := fs : nat * list (nat * S) in evaluateFold numFolds fold (isLastFold numFolds fold (-1)%Z) l st) (None, []) in
  Some (snd st).

(** ** Statistics about models *)

(** The numbers of conditions that use individual operators, in the order of model_characteristics.py, lines 283-288. *)
Record counts := Counts { numericalLeq : nat; numericalGr : nat; ordinalLeq : nat; ordinalGr : nat; nominalEq : nat; nominalNeq : nat }.

(** A rule: Its body is empty or a conjunction of conditions, of which only the numbers are considered. Its head consists of scores. *)
Record crule := CRule { cbody : option counts; cscores : list Q }.

(** The state of a visitor (model_characteristics.py, lines 282-294). *)
Record visitor := Visitor {
  vcounts : list counts;
  vpredictions : list (nat * nat);
  vdefault : option nat;
  vdefaultPredictions : nat * nat;
  vindex : Z
}.

Definition newVisitor : visitor := Visitor [] [] None (0, 0) (-1)%Z.

(** model_characteristics.py, lines 296-317. *)
Definition visitBody (v : visitor) (body : option counts) : visitor :=
  let index := (vindex v + 1)%Z in
  match body with
  | None => Visitor (vcounts v) (vpredictions v) (Some (Z.to_nat index)) (vdefaultPredictions v) index
  | Some c => Visitor (vcounts v ++ [c]) (vpredictions v) (vdefault v) (vdefaultPredictions v) index
  end.

(** model_characteristics.py, lines 319-345. *)
Definition visitHead (v : visitor) (scores : list Q) : visitor :=
  let numPos := List.length (filter (fun s => negb (Qle_bool s 0)) scores) in
  let numNeg := List.length scores - numPos in
  if match vdefault v with Some i => (vindex v =? Z.of_nat i)%Z | None => false end then
    Visitor (vcounts v) (vpredictions v) (vdefault v) (numPos, numNeg) (vindex v)
  else Visitor (vcounts v) (vpredictions v ++ [(numPos, numNeg)]) (vdefault v) (vdefaultPredictions v) (vindex v).

(** The rules are visited one after the other. *)
Definition visitRules (rules : list crule) : visitor :=
  fold_left (fun v r => visitHead (visitBody v (cbody r)) (cscores r)) rules newVisitor.

(** A row of the table that is written: the number of the rule, whether it is the default rule, the numbers of conditions and the numbers
    of positive and negative predictions. *)
Record trow := TRow { tnumber : nat; tdefault : bool; tcounts : counts; tpos : nat; tneg : nat }.

(** model_characteristics.py, lines 219-275. *)
Definition tabularize (v : visitor) : option (list trow) :=
  let numRules := List.length (vpredictions v) in
  let numTotalRules := match vdefault v with None => numRules | Some _ => numRules + 1 end in
  let* st := forN numTotalRules 0 (fun i (st : list trow * nat) =>
    let (l, j) := st in
    if match vdefault v with Some d => i =? d | None => false end then
      Some (l ++ [TRow (i + 1) true (Counts 0 0 0 0 0 0) (fst (vdefaultPredictions v)) (snd (vdefaultPredictions v))], j)
    else
      let* c := aget (vcounts v) j in
      let* p := aget (vpredictions v) j in
      Some (l ++ [TRow (i + 1) false c (fst p) (snd p)], j + 1)) ([], 0) in
  Some (fst st).

(** ** Durations *)

Inductive unit_ := Days | Hours | Minutes | Seconds | Milliseconds.

(** format.py, lines 22-53, where the duration is given in seconds: the numbers and units that are written. *)
Definition durationParts (duration : Q) : list (Z * unit_) :=
  let seconds := Qfloor duration in
  let millis := Qfloor ((duration - inject_Z seconds) * inject_Z 1000) in
  (let days := seconds / 86400 in
  let seconds := seconds mod 86400 in
  let hours := seconds / 3600 in
  let seconds := seconds mod 3600 in
  let minutes := seconds / 60 in
  let seconds := seconds mod 60 in
  let substrings := (if 0 <? days then [(days, Days)] else []) ++ (if 0 <? hours then [(hours, Hours)] else [])
    ++ (if 0 <? minutes then [(minutes, Minutes)] else []) ++ (if 0 <? seconds then [(seconds, Seconds)] else []) in
  substrings ++ (if (0 <? millis) || (List.length substrings =? 0)%nat then [(millis, Milliseconds)] else []))%Z.
