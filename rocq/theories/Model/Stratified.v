(** Model of stratified sampling.
    Sources (below cpp/subprojects/common/src/mlrl/common/sampling): stratified_sampling_common.hpp,
    stratified_sampling_example_wise.cpp, stratified_sampling_output_wise.cpp. *)
From Coq Require Import NArith Arith List Bool ZArith QArith Qround.
From Verif Require Import Lib.Arr Model.Rng Model.Sampling.
Import ListNotations.
Open Scope nat_scope.

(** Subtraction of [uint32] values, which wraps around. *)
Definition u32sub (a b : nat) : N := u32 (u32 (N.of_nat a) + 2 ^ 32 - u32 (N.of_nat b)).

(** stratified_sampling_common.hpp, lines 8-16. *)
Definition tiebreak (numDesired numDesiredOut : N) (s : N) : option (bool * N) :=
  if (numDesiredOut <? numDesired)%N then Some (true, s)
  else if (numDesired <? numDesiredOut)%N then Some (false, s)
  else randomBool s.

(** stratified_sampling_example_wise.cpp, lines 61 and 64-66 (output_wise: 393 and 396-398): ceiling or floor
    of [ratio * numExamples]. Exact arithmetic instead of single precision. *)
Definition roundShare (ratio : Q) (numExamples : nat) (up : bool) : nat :=
  let x := (ratio * inject_Z (Z.of_nat numExamples))%Q in
  Z.to_nat (if up then Qceiling x else Qfloor x).

(** stratified_sampling_example_wise.cpp, lines 71-85 (output_wise: 401-416). State: the indices of the stratum
    (permuted in place), the weights, the generator. *)
Definition drawWeights (stratum : list nat) (numSamples : nat) (w : list bool) (s : N)
  : option (list nat * list bool * N) :=
  let numExamples := length stratum in
  let* (stratum, w, s) :=
    forN numSamples 0 (fun i '(st, w, s) =>
      let* (randomIndex, s') := randomInt s i numExamples in
      let* exampleIndex := aget st randomIndex in
      let* y := aget st i in
      let* st1 := aset st randomIndex y in
      let* st2 := aset st1 i exampleIndex in
      let* w' := aset w exampleIndex true in
      Some (st2, w', s')) (stratum, w, s) in
  let* w :=
    forN (numExamples - numSamples) numSamples (fun i w =>
      let* exampleIndex := aget stratum i in aset w exampleIndex false) w in
  Some (stratum, w, s).

(** stratified_sampling_example_wise.cpp, lines 57-86 (output_wise: 390-417): one iteration per stratum.
    [T], [O]: [numTotalSamples], [numTotalOutOfSamples]; [nz], [z]: [numNonZeroWeights], [numZeroWeights]. *)
Fixpoint stratifiedWeightsLoop (order : list (list nat)) (sampleSize : Q) (T O nz z : nat) (w : list bool) (s : N)
  : option (list (list nat) * list bool * nat * N) :=
  match order with
  | [] => Some ([], w, nz, s)
  | stratum :: rest =>
      let numExamples := length stratum in
      let* (up, s) := tiebreak (u32sub T nz) (u32sub O z) s in
      let numSamples := roundShare sampleSize numExamples up in
      let* (stratum', w, s) := drawWeights stratum numSamples w s in
      let* (rest', w, nz, s) :=
        stratifiedWeightsLoop rest sampleSize T O (nz + numSamples) (z + (numExamples - numSamples)) w s in
      Some (stratum' :: rest', w, nz, s)
  end.

(** stratified_sampling_example_wise.cpp, lines 48-89 (output_wise: 378-420). Returns the permuted strata, the
    weights, [numNonZeroWeights] and the generator. *)
Definition stratifiedWeights (order : list (list nat)) (numTotal : nat) (sampleSize : Q) (minS maxS : nat)
    (w : list bool) (s : N) : option (list (list nat) * list bool * nat * N) :=
  let T := calculateBoundedFraction numTotal sampleSize minS maxS in
  stratifiedWeightsLoop order sampleSize T (numTotal - T) 0 0 w s.

(** stratified_sampling_example_wise.cpp, lines 118-134 (output_wise: 450-466). [fi], [si]: positions of
    [firstIterator] and [secondIterator]. *)
Definition drawPartition (stratum : list nat) (numSamples : nat) (first : list nat) (fi : nat)
    (second : list nat) (si : nat) (s : N) : option (list nat * list nat * nat * list nat * nat * N) :=
  let numExamples := length stratum in
  let* (stratum, first, fi, s) :=
    forN numSamples 0 (fun i '(st, first, fi, s) =>
      let* (randomIndex, s') := randomInt s i numExamples in
      let* exampleIndex := aget st randomIndex in
      let* y := aget st i in
      let* st1 := aset st randomIndex y in
      let* st2 := aset st1 i exampleIndex in
      let* first' := aset first fi exampleIndex in
      Some (st2, first', fi + 1, s')) (stratum, first, fi, s) in
  let* (second, si) :=
    forN (numExamples - numSamples) numSamples (fun i '(second, si) =>
      let* exampleIndex := aget stratum i in
      let* second' := aset second si exampleIndex in
      Some (second', si + 1)) (second, si) in
  Some (stratum, first, fi, second, si, s).

(** stratified_sampling_example_wise.cpp, lines 102-105 (output_wise: 434-437). [None]: 0/0. The share taken
    from a stratum in exact arithmetic; the model below is parametric in it. *)
Definition exactShare (numFirst numSecond numExamples : nat) (up : bool) : option nat :=
  match numFirst + numSecond with
  | O => None
  | S k => Some (roundShare (Z.of_nat numFirst # Pos.of_succ_nat k) numExamples up)
  end.

(** stratified_sampling_example_wise.cpp, lines 98-135 (output_wise: 430-467). *)
Fixpoint stratifiedPartitionLoop (share : nat -> nat -> nat -> bool -> option nat) (order : list (list nat))
    (numFirst numSecond : nat) (first : list nat) (fi : nat) (second : list nat) (si : nat) (s : N)
  : option (list (list nat) * list nat * list nat * N) :=
  match order with
  | [] => Some ([], first, second, s)
  | stratum :: rest =>
      let numExamples := length stratum in
      let* (up, s) := tiebreak (u32 (N.of_nat numFirst)) (u32 (N.of_nat numSecond)) s in
      let* numSamples := share numFirst numSecond numExamples up in
      let numSamples :=
        if numFirst <? numSamples then numFirst
        else if numSecond <? numExamples - numSamples then numExamples - numSecond else numSamples in
      let* (stratum', first, fi, second, si, s) := drawPartition stratum numSamples first fi second si s in
      let* (rest', first, second, s) :=
        stratifiedPartitionLoop share rest (numFirst - numSamples) (numSecond - (numExamples - numSamples))
          first fi second si s in
      Some (stratum' :: rest', first, second, s)
  end.

(** stratified_sampling_example_wise.cpp, lines 91-136 (output_wise: 422-468). [first], [second]: the arrays of
    the partition with unspecified content. *)
Definition stratifiedPartition share (order : list (list nat)) (first second : list nat) (s : N) :=
  stratifiedPartitionLoop share order (length first) (length second) first 0 second 0 s.

(** * Strata by label vectors *)

(** [CContiguousView<const uint8>::const_row::Equal] (view_vector.hpp, line 51). *)
Fixpoint equalRows (a b : list bool) : bool :=
  match a, b with
  | [], [] => true
  | x :: a', y :: b' => Bool.eqb x y && equalRows a' b'
  | _, _ => false
  end.

(** Appends an example to the entry of its label vector, creating the entry if needed
    (stratified_sampling_example_wise.cpp, lines 24-30). *)
Fixpoint addToGroup {K} (eqb : K -> K -> bool) (map : list (K * list nat)) (key : K) (example : nat)
  : list (K * list nat) :=
  match map with
  | [] => [(key, [example])]
  | (k, l) :: rest => if eqb k key then (k, l ++ [example]) :: rest else (k, l) :: addToGroup eqb rest key example
  end.

(** stratified_sampling_example_wise.cpp, lines 22-31. [rows]: key of each row of the label matrix. *)
Fixpoint groupExamples {K} (eqb : K -> K -> bool) (rows : list K) (indices : list nat) (map : list (K * list nat))
  : option (list (K * list nat)) :=
  match indices with
  | [] => Some map
  | i :: rest => let* row := aget rows i in groupExamples eqb rows rest (addToGroup eqb map row i)
  end.

(** stratified_sampling_example_wise.cpp, lines 34-45: the order of the strata. The iteration order of
    [std::unordered_map] and the order of equally sized strata after [std::sort] are unspecified, hence a
    relation. *)
Inductive sortedBySize : list (list nat) -> Prop :=
| sorted_nil : sortedBySize []
| sorted_cons a l : Forall (fun b => length a <= length b) l -> sortedBySize l -> sortedBySize (a :: l).

(** The key used for a sparse row: [BinaryCsrView::operator[]] (view_matrix_csr_binary.hpp, lines 58-60) yields
    a view of [numCols] elements, starting at the first index of the row. Reading past the end of [indices] is
    undefined. *)
Definition csrRowKey (indices indptr : list nat) (numCols row : nat) : option (list nat) :=
  let* start := aget indptr row in
  if start + numCols <=? length indices then Some (firstn numCols (skipn start indices)) else None.

(** * Strata by individual labels *)

(** Lexicographic order of the entries (value, index) of the sorted set
    (stratified_sampling_output_wise.cpp, lines 181-183). *)
Definition entryLt (a b : nat * nat) : bool :=
  (fst a <? fst b) || ((fst a =? fst b) && (snd a <? snd b)).

(** [std::set::emplace] and [erase]: the set is a sorted list of pairs (value, label). *)
Fixpoint setInsert (x : nat * nat) (l : list (nat * nat)) : list (nat * nat) :=
  match l with
  | [] => [x]
  | y :: rest => if entryLt x y then x :: l else if entryLt y x then y :: setInsert x rest else l
  end.

Definition entryEq (a b : nat * nat) : bool := (fst a =? fst b) && (snd a =? snd b).

(** [erase(find(x))]; [None] if there is no such entry, since erasing the end iterator is undefined. *)
Fixpoint setErase (x : nat * nat) (l : list (nat * nat)) : option (list (nat * nat)) :=
  match l with
  | [] => None
  | y :: rest => if entryEq x y then Some rest else let* r := setErase x rest in Some (y :: r)
  end.

(** stratified_sampling_output_wise.cpp, lines 12-34: the examples associated with a label, in the order of the
    given indices. [rows]: the relevant labels of each example. The conversion of a sparse label matrix (lines
    36-92) is modelled in Model/Csc.v. *)
Definition hasLabel (rows : list (list nat)) (label example : nat) : bool :=
  match nth_error rows example with Some r => mem label r | None => false end.
(** See above (stratified_sampling_output_wise.cpp, lines 12-34; stratified_sampling_output_wise.cpp, lines 36-92). *)
Definition cscColumn (rows : list (list nat)) (indices : list nat) (label : nat) : list nat :=
  filter (hasLabel rows label) indices.

(** [std::unordered_map::emplace]: keeps an existing entry. *)
Definition mapEmplace (key value : nat) (m : list (nat * nat)) : list (nat * nat) :=
  if existsb (fun e => fst e =? key) m then m else m ++ [(key, value)].

(** stratified_sampling_output_wise.cpp, lines 186-199 and 201-213. State: [numExamplesPerLabel] and
    [affectedLabelIndices]. *)
Fixpoint updateNumExamplesPerLabel (labels : list nat) (num : list nat) (affected : list (nat * nat))
  : option (list nat * list (nat * nat)) :=
  match labels with
  | [] => Some (num, affected)
  | l :: rest =>
      let* numRemaining := aget num l in
      let* num' := aset num l (numRemaining - 1) in
      updateNumExamplesPerLabel rest num' (mapEmplace l numRemaining affected)
  end.

(** stratified_sampling_output_wise.cpp, lines 292-308. State: [mask], the examples added to the current column,
    [numExamplesPerLabel], [affectedLabelIndices]. *)
Fixpoint processColumn (rows : list (list nat)) (examples : list nat) (mask : list bool) (column num : list nat)
    (affected : list (nat * nat)) : option (list bool * list nat * list nat * list (nat * nat)) :=
  match examples with
  | [] => Some (mask, column, num, affected)
  | e :: rest =>
      let* m := aget mask e in
      if m : bool then
        let* mask' := aset mask e false in
        let* labels := aget rows e in
        let* (num', affected') := updateNumExamplesPerLabel labels num affected in
        processColumn rows rest mask' (column ++ [e]) num' affected'
      else processColumn rows rest mask column num affected
  end.

(** stratified_sampling_output_wise.cpp, lines 312-326. The iteration order of [std::unordered_map] is
    unspecified; as the entries have pairwise distinct keys it does not matter (the model uses the order of
    insertion). *)
Fixpoint updateOrder (affected : list (nat * nat)) (labelIndex : nat) (num : list nat) (set : list (nat * nat))
  : option (list (nat * nat)) :=
  match affected with
  | [] => Some set
  | (key, value) :: rest =>
      if key =? labelIndex then updateOrder rest labelIndex num set
      else
        let* numRemaining := aget num key in
        let set' := if 0 <? numRemaining then setInsert (numRemaining, key) set else set in
        let* set'' := setErase (value, key) set' in
        updateOrder rest labelIndex num set''
  end.

(** stratified_sampling_output_wise.cpp, lines 277-329; [fuel] bounds the number of iterations. The columns are
    kept as a list of lists instead of the arrays [indices] and [indptr]. *)
Fixpoint stratifyLoop (fuel : nat) (rows : list (list nat)) (indices : list nat) (set : list (nat * nat))
    (mask : list bool) (num : list nat) (columns : list (list nat))
  : option (list bool * list (list nat)) :=
  match set with
  | [] => Some (mask, columns)
  | (_, labelIndex) :: set' =>
      match fuel with
      | O => None
      | S fuel' =>
          let* (mask, column, num, affected) :=
            processColumn rows (cscColumn rows indices labelIndex) mask [] num [] in
          let* set'' := updateOrder affected labelIndex num set' in
          stratifyLoop fuel' rows indices set'' mask num (columns ++ [column])
      end
  end.

(** stratified_sampling_output_wise.cpp, lines 265-270. *)
Definition initMask (numRows : nat) (indices : list nat) : option (list bool) :=
  forN (length indices) 0 (fun i mask => let* e := aget indices i in aset mask e true) (repeat false numRows).

(** Positions of the bits that are set (lines 345-351). *)
Definition remaining (mask : list bool) : list nat :=
  filter (fun i => nth i mask false) (seq 0 (length mask)).

(** stratified_sampling_output_wise.cpp, lines 238-360. *)
Definition stratificationMatrix (rows : list (list nat)) (numLabels : nat) (indices : list nat)
  : option (list (list nat)) :=
  let num := map (fun l => length (cscColumn rows indices l)) (seq 0 numLabels) in
  let set := fold_left (fun set l => let n := length (cscColumn rows indices l) in
                                     if 0 <? n then setInsert (n, l) set else set) (seq 0 numLabels) [] in
  let* mask := initMask (length rows) indices in
  let* (mask, columns) := stratifyLoop numLabels rows indices set mask num [] in
  let numDense := length (concat columns) in
  if 0 <? length indices - numDense then Some (columns ++ [remaining mask]) else Some columns.
