(** Specification of the filtering of feature vectors and examples. *)
From Coq Require Import ZArith Arith List Bool Sorted.
From Verif Require Import Lib.Arr Model.Search Model.Filter Spec.Search.
Import ListNotations.
Open Scope nat_scope.

(** The values of a feature, by example; [None] if the value is missing. *)
Definition column : Type := nat -> option Z.

Definition hasValue (col : column) (i : nat) : bool := match col i with Some _ => true | None => false end.
Definition valueOf (col : column) (i : nat) : Z := match col i with Some z => z | None => 0%Z end.

(** Those of the given examples that have a value. *)
Definition valued (col : column) (examples : list nat) : list nat := filter (hasValue col) examples.

(** The vector describes the values the given examples have. Vectors for features whose values are all the same hold no
    information. *)
Definition represents (col : column) (examples : list nat) (vec : fvec) : Prop :=
  match vec with
  | EqualVec => True
  | _ =>
      NoDup (missingOf vec) /\ (forall i, In i (missingOf vec) <-> In i examples /\ col i = None) /\
      match vec with
      | EqualVec => True
      | NumericalVec v sparseValue sparse _ =>
          numerical_vector (valued col examples) (valueOf col) v sparseValue sparse
      | NominalVec Nominal values bins majority _ =>
          nominal_vector (valued col examples) (valueOf col) values bins majority /\
          Forall (fun ids => ids <> []) bins
      | NominalVec Ordinal values bins majority _ =>
          ordinal_vector (valued col examples) (valueOf col) values bins majority /\
          Forall (fun ids => ids <> []) bins
      | NominalVec Binary values bins majority _ =>
          nominal_vector (valued col examples) (valueOf col) values bins majority /\
          Forall (fun ids => ids <> []) bins /\ length values = 1
      | BinnedVec thresholds bins sparseBin _ =>
          binned_vector (valued col examples) (valueOf col) thresholds bins sparseBin
      end
  end.

(** Whether an example satisfies all conditions of a rule. Missing values do not satisfy any condition. *)
Definition satisfies (cols : nat -> column) (conditions : list (nat * test)) (i : nat) : bool :=
  forallb (fun c => match cols (fst c) i with Some z => holds (snd c) z | None => false end) conditions.

Definition coveredBy (cols : nat -> column) (numExamples : nat) (conditions : list (nat * test)) : list nat :=
  filter (satisfies cols conditions) (seq 0 numExamples).

(** The positions a condition (or its negation) refers to exist. Except for nominal features, they are the first or the
    last ones. *)
Definition valid_interval (vec : fvec) (e : evaluated) : Prop :=
  eStart e <= eEnd e <= length (binsOf vec) /\
  match vec with
  | NominalVec Nominal _ _ _ _ => True
  | _ => eStart e = 0 \/ eEnd e = length (binsOf vec)
  end.

Section Runs.
Variable isEqual : Z -> Z -> bool.
Variable original : nat -> fvec.
Variable cols : nat -> column.
Variable numExamples numFeatures : nat.
Variable weight : nat -> bool.

(** The subspaces that are reached by searching features, copying subspaces and adding conditions for which [correct]
    holds, and the conditions that have been added. *)
Inductive reaches (correct : subspace -> list (nat * test) -> nat -> fvec -> evaluated -> Prop)
  : subspace -> list (nat * test) -> Prop :=
  | reaches_new :
      reaches correct (newSubspace numExamples numFeatures (length (filter weight (seq 0 numExamples)))) []
  | reaches_search f st conditions vec st' :
      reaches correct st conditions -> refresh isEqual original f st = Some (vec, st') -> reaches correct st' conditions
  | reaches_copy st conditions :
      reaches correct st conditions -> reaches correct (copySubspace st) conditions
  | reaches_filter f e st conditions vec st' st'' :
      reaches correct st conditions -> refresh isEqual original f st = Some (vec, st') ->
      correct st' conditions f vec e -> filterSubspace isEqual original f e st = Some st'' ->
      reaches correct st'' (conditions ++ [(f, eTest e)]).

(** A condition whose positions are exactly those of the covered examples that satisfy it, and whose number of covered
    examples is correct. *)
Definition exact_condition (st : subspace) (conditions : list (nat * test)) (f : nat) (vec : fvec) (e : evaluated)
  : Prop :=
  let examples := valued (cols f) (coveredBy cols numExamples conditions) in
  valid_interval vec e /\ exact_interval examples (valueOf (cols f)) (binsOf vec) e /\
  eCovered e = support examples weight (valueOf (cols f)) (eTest e).

(** A condition that is found by a search that uses the statistics and the number of examples with non-zero weights
    known to the subspace. The statistics of examples with missing values are excluded. *)
Definition found_condition (minCoverage : nat) (st : subspace) (conditions : list (nat * test)) (f : nat) (vec : fvec)
  (e : evaluated) : Prop :=
  let total := filter (fun i => negb (existsb (Nat.eqb i) (missingOf vec)))
    (filter (fun i => weight i && match aget (sStatistics st) i with Some x => (x =? 1)%Z | None => false end)
       (seq 0 numExamples)) in
  match vec with
  | EqualVec => False
  | NumericalVec v sparseValue sparse _ =>
      exists l, searchNumerical weight total (sCovered st) minCoverage isEqual v sparseValue sparse = Some l /\ In e l
  | NominalVec Nominal values bins majority _ =>
      exists l, searchNominal weight total (sCovered st) minCoverage values bins majority = Some l /\ In e l
  | NominalVec Ordinal values bins majority _ =>
      exists l, searchOrdinal weight total (sCovered st) minCoverage values bins majority = Some l /\ In e l
  | NominalVec Binary values bins majority _ =>
      exists v ids, values = [v] /\ bins = [ids] /\
        In e (searchBinary weight total (sCovered st) minCoverage v majority ids)
  | BinnedVec thresholds bins sparseBin _ =>
      exists l, searchBinned weight total (sCovered st) minCoverage thresholds bins sparseBin = Some l /\ In e l
  end.

End Runs.

(** Features for which filtering is known to be exact. *)
Definition supported (vec : fvec) : Prop :=
  match vec with
  | BinnedVec _ _ _ _ => False
  | NominalVec Nominal _ _ _ missing => missing = []
  | _ => True
  end.

(** In addition, binned features, if all examples are stored. *)
Definition supported_by (col : column) (examples : list nat) (vec : fvec) : Prop :=
  match vec with
  | BinnedVec _ bins _ _ => Forall (fun ids => ids <> []) bins /\ incl (valued col examples) (concat bins)
  | _ => supported vec
  end.

(** Two vectors that only differ in the index of the sparse bin. *)
Definition same_but_sparse (v w : fvec) : Prop :=
  match v, w with
  | BinnedVec thresholds bins _ missing, BinnedVec thresholds' bins' _ missing' =>
      thresholds = thresholds' /\ bins = bins' /\ missing = missing'
  | BinnedVec _ _ _ _, _ => False
  | _, _ => v = w
  end.

(** Nominal, binary and ordinal features without missing values. Examples with zero weights may only be used if there
    are no ordinal features. *)
Definition categorical (allWeighted : bool) (vec : fvec) : Prop :=
  match vec with
  | EqualVec => True
  | NominalVec Ordinal _ _ _ missing => missing = [] /\ allWeighted = true
  | NominalVec _ _ _ _ missing => missing = []
  | _ => False
  end.

(** The interval consists of the first or the last ones of [n] positions. *)
Definition outer (n : nat) (e : evaluated) : Prop :=
  eStart e <= eEnd e <= n /\ (eStart e = 0 \/ eEnd e = n).

(** An example is covered according to the mask iff it satisfies the conditions, its statistics are included once if it is
    covered, and the number of covered examples is correct. *)
Definition correct_state (cols : nat -> column) (numExamples : nat) (weight : nat -> bool) (st : subspace)
  (conditions : list (nat * test)) : Prop :=
  (forall i, i < numExamples -> isCovered st i = satisfies cols conditions i) /\
  (forall i, i < numExamples -> nth_error (sStatistics st) i = Some (if satisfies cols conditions i then 1 else 0)%Z) /\
  sCovered st = length (filter weight (coveredBy cols numExamples conditions)).

Definition unbinned (vec : fvec) : Prop := match vec with BinnedVec _ _ _ _ => False | _ => True end.

(** All examples have a non-zero weight. *)
Definition always (i : nat) : bool := true.
