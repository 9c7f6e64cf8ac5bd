(** Model of feature vectors that are filtered when conditions are added to a rule, and of the coverage mask. *)
From Coq Require Import ZArith Arith List Bool.
From Verif Require Import Lib.Arr Model.Search.
Import ListNotations.
Open Scope nat_scope.

(** common/input/interval.hpp, lines 11-53: a condition is also an interval; [eStart], [eEnd] and [eInverse] of
    [evaluated] are its fields. *)

(** lines 63-85. *)
Definition getStartAndEndOfOpenInterval (start end_ : nat) (inverse : bool) (maxIndex : nat) : nat * nat :=
  if inverse then
    if 0 <? start then (0, start) else (end_, maxIndex)
  else (start, if 0 <? start then maxIndex else end_).

(** ** Feature vectors *)

(** NominalFeatureVectorDecorator, OrdinalFeatureVectorDecorator and its views, BinaryFeatureVectorDecorator. *)
Inductive nominalKind : Type := Nominal | Ordinal | Binary.

(** The subclasses of IFeatureVector. The arrays [indices] and [indptr] of compressed vectors are represented by one
    list per bin. Each vector comes with the indices of the examples whose value is missing, without duplicates, as a
    hash set is used (feature_vector_missing.hpp). Views have no missing values. *)
Inductive fvec : Type :=
  | EqualVec
  | NumericalVec (v : list (nat * Z)) (sparseValue : Z) (sparse : bool) (missing : list nat)
  | NominalVec (k : nominalKind) (values : list Z) (bins : list (list nat)) (majority : Z) (missing : list nat)
  | BinnedVec (thresholds : list Z) (bins : list (list nat)) (sparseBin : nat) (missing : list nat).

(** The examples stored at each position of a vector. *)
Definition binsOf (vec : fvec) : list (list nat) :=
  match vec with
  | EqualVec => []
  | NumericalVec v _ _ _ => map (fun x => [fst x]) v
  | NominalVec _ _ bins _ _ => bins
  | BinnedVec _ bins _ _ => bins
  end.

Definition missingOf (vec : fvec) : list nat :=
  match vec with
  | EqualVec => []
  | NumericalVec _ _ _ missing => missing
  | NominalVec _ _ _ _ missing => missing
  | BinnedVec _ _ _ missing => missing
  end.

Section Filter.
(** [isEqual] (common/data/types.hpp, lines 46-50). *)
Variable isEqual : Z -> Z -> bool.

(** *** Filtering by a coverage mask *)

(** feature_vector_decorator_nominal_common.hpp, lines 23-46: empty bins are dropped. *)
Fixpoint keepBins {A} (covered : nat -> bool) (values : list A) (bins : list (list nat)) : list A * list (list nat) :=
  match values, bins with
  | v :: values', ids :: bins' =>
      let (vs, bs) := keepBins covered values' bins' in
      match filter covered ids with
      | [] => (vs, bs)
      | ids' => (v :: vs, ids' :: bs)
      end
  | _, _ => ([], [])
  end.

(** feature_vector_decorator_binned.hpp, lines 47-78; [numFilteredBins] is [length bs]. The bin [i] is handled next. *)
Fixpoint keepBinned (covered : nat -> bool) (thresholds : list Z) (numBins : nat) (bins : list (list nat)) (i : nat)
  (ts : list Z) (bs : list (list nat)) (sparseBin : nat) : list Z * list (list nat) * nat :=
  match bins with
  | [] => (ts, bs, sparseBin)
  | ids :: bins' =>
      match filter covered ids with
      | [] => keepBinned covered thresholds numBins bins' (i + 1) ts bs sparseBin
      | ids' =>
          let sparseBin := if sparseBin <=? length bs then length bs else sparseBin in
          let ts := if i <? numBins - 1 then ts ++ [nth i thresholds 0%Z] else ts in
          keepBinned covered thresholds numBins bins' (i + 1) ts (bs ++ [ids']) sparseBin
      end
  end.

(** [createFilteredFeatureVector] with a coverage mask: feature_vector_decorator.hpp, lines 28-69 (missing values),
    feature_vector_decorator_numerical.hpp, lines 34-63, feature_vector_decorator_nominal_common.hpp, lines 11-54,
    feature_vector_decorator_binned.hpp, lines 35-86 (and [resize], feature_vector_binned_allocated.hpp, lines 56-66),
    feature_vector_equal.cpp, lines 33-36. *)
Definition filterByMask (covered : nat -> bool) (vec : fvec) : fvec :=
  match vec with
  | EqualVec => EqualVec
  | NumericalVec v sparseValue sparse missing =>
      let v' := filter (fun x => covered (fst x)) v in
      match v' with
      | [] => EqualVec
      | (_, first) :: _ =>
          let last := snd (last v' (0, 0%Z)) in
          if sparse || negb (isEqual first last) then NumericalVec v' sparseValue sparse (filter covered missing)
          else EqualVec
      end
  | NominalVec k values bins majority missing =>
      let (values', bins') := keepBins covered values bins in
      match bins' with
      | [] => EqualVec
      | _ => NominalVec k values' bins' majority (filter covered missing)
      end
  | BinnedVec thresholds bins sparseBin missing =>
      let '(thresholds', bins', sparseBin') := keepBinned covered thresholds (length bins) bins 0 [] [] sparseBin in
      match bins' with
      | [] => EqualVec
      | _ =>
          let numBins := length bins' in
          BinnedVec (firstn (numBins - 1) thresholds') bins'
            (if numBins <=? sparseBin' then numBins - 1 else sparseBin') (filter covered missing)
      end
  end.

(** *** Filtering by an interval *)

(** The elements at the positions [start], ..., [end_ - 1]. *)
Definition slice {A} (start end_ : nat) (l : list A) : list A := firstn (end_ - start) (skipn start l).

(** [createFilteredFeatureVector] with an interval: feature_vector_decorator_numerical.hpp, lines 15-32 and 256-274,
    feature_vector_decorator_nominal.hpp, lines 13-73, feature_vector_decorator_ordinal.hpp, lines 14-30 and 216-234,
    feature_vector_decorator_binary.hpp, lines 49-52, feature_vector_decorator_binned.hpp, lines 14-33 and 275-293.
    [reuse]: whether [existing] is the vector itself (otherwise, it is null). [None] if an exception is thrown
    (feature_vector_equal.cpp, lines 28-31) or an element outside of an array is accessed. *)
Definition filterByInterval (reuse : bool) (start end_ : nat) (inverse : bool) (vec : fvec) : option fvec :=
  match vec with
  | EqualVec => None
  | NumericalVec v sparseValue sparse _ =>
      let (first, last) := getStartAndEndOfOpenInterval start end_ inverse (length v) in
      let num := last - first in
      if 0 <? num then
        if sparse then Some (NumericalVec (slice first last v) sparseValue sparse [])
        else
          let* (_, a) := aget v first in
          let* (_, b) := aget v (num - 1) in
          if isEqual a b then Some EqualVec else Some (NumericalVec (slice first last v) sparseValue sparse [])
      else Some EqualVec
  | NominalVec Nominal values bins majority missing =>
      if inverse then
        let bins' := firstn start bins ++ skipn end_ bins in
        match concat bins' with
        | [] => Some EqualVec
        | _ => Some (NominalVec Nominal (firstn start values ++ skipn end_ values) bins' majority
                       (if reuse then missing else []))
        end
      else Some EqualVec
  | NominalVec Ordinal values bins majority _ =>
      let (first, last) := getStartAndEndOfOpenInterval start end_ inverse (length bins) in
      if 0 <? last - first then Some (NominalVec Ordinal (slice first last values) (slice first last bins) majority [])
      else Some EqualVec
  | NominalVec Binary _ _ _ _ => Some EqualVec
  | BinnedVec thresholds bins sparseBin _ =>
      let (first, last) := getStartAndEndOfOpenInterval start end_ inverse (length bins) in
      let num := last - first in
      if 0 <? num then
        let sparseBin := if first <=? sparseBin then sparseBin - first else 0 in
        let sparseBin := if num <=? sparseBin then num - 1 else sparseBin in
        Some (BinnedVec (slice first (last - 1) thresholds) (slice first last bins) sparseBin [])
      else Some EqualVec
  end.

(** *** The feature subspace *)

(** common/rule_refinement/coverage_mask.cpp, lines 6-22: [sMask] is the array and [sIndicator] the indicator value.
    feature_space_tabular.cpp, lines 144-156: [sModifications], [sCovered] and [sCache] are [numModifications_],
    [numCovered_] and [cacheFiltered_] (by feature; the filtered vector, if any, and its number of conditions).
    [sStatistics] says how often each statistic is included in the sums of covered statistics maintained by
    [weightedStatisticsPtr_]. *)
Record subspace : Type :=
  mkSubspace { sMask : list nat; sIndicator : nat; sModifications : nat; sCovered : nat; sStatistics : list Z;
               sCache : list (option fvec * nat) }.

(** coverage_mask.cpp, lines 20-22. *)
Definition isCovered (st : subspace) (i : nat) : bool :=
  match aget (sMask st) i with Some x => x =? sIndicator st | None => false end.

(** feature_space_tabular.cpp, lines 168-172 (and lines 186-199: entries for all features). *)
Definition newSubspace (numExamples numFeatures numWeighted : nat) : subspace :=
  mkSubspace (repeat 0 numExamples) 0 0 numWeighted (repeat 1%Z numExamples) (repeat (None, 0) numFeatures).

(** lines 177-184: the filtered vectors are not copied. *)
Definition copySubspace (st : subspace) : subspace :=
  mkSubspace (sMask st) (sIndicator st) (sModifications st) (sCovered st) (sStatistics st)
    (repeat (None, 0) (length (sCache st))).

(** lines 229-234: the statistics are left unchanged. *)
Definition resetSubspace (numWeighted : nat) (st : subspace) : subspace :=
  mkSubspace (repeat 0 (length (sMask st))) 0 0 numWeighted (sStatistics st) (repeat (None, 0) (length (sCache st))).

(** The unfiltered feature vectors ([featureSpace_.cache_], line 323), which are assumed to have been created. *)
Variable original : nat -> fvec.

(** lines 111-138 (when searching for conditions) and lines 202-219 (when adding one): the vector of a feature is
    filtered if the coverage mask has been modified in the meantime. *)
Definition refresh (f : nat) (st : subspace) : option (fvec * subspace) :=
  let* (vectorPtr, numConditions) := aget (sCache st) f in
  let vec := match vectorPtr with Some v => v | None => original f end in
  if numConditions <? sModifications st then
    let vec' := filterByMask (isCovered st) vec in
    let* cache := aset (sCache st) f (Some vec', sModifications st) in
    Some (vec', mkSubspace (sMask st) (sIndicator st) (sModifications st) (sCovered st) (sStatistics st) cache)
  else Some (vec, st).

(** feature_vector_decorator_numerical.hpp, lines 101-105 and 115-119, feature_vector_decorator_binned_common.hpp, lines
    23-33 and 43-53, feature_vector_decorator.hpp, lines 21-25: sets elements of the mask and adds [d] to the number of
    times the statistics are included. *)
Definition markAll (ids : list nat) (indicator : nat) (d : Z) (st : list nat * list Z) : option (list nat * list Z) :=
  forL ids (fun i '(mask, stats) =>
    let* mask := aset mask i indicator in
    let* x := aget stats i in
    let* stats := aset stats i (x + d)%Z in
    Some (mask, stats)) st.

(** feature_vector_decorator_numerical.hpp, lines 92-121, feature_vector_decorator_binned_common.hpp, lines 12-55; the
    result includes the indicator value of the mask. *)
Definition updateCoverageMaskAndStatistics (start end_ : nat) (inverse : bool) (vec : fvec) (oldIndicator indicator : nat)
  (mask : list nat) (stats : list Z) : option (list nat * nat * list Z) :=
  match vec with
  | EqualVec => None
  | _ =>
      if length (binsOf vec) <? end_ then None
      else
        let ids := concat (slice start end_ (binsOf vec)) in
        if inverse then
          let* (mask, stats) := markAll ids indicator (-1) (mask, stats) in
          let* (mask, stats) := markAll (missingOf vec) indicator (-1) (mask, stats) in
          Some (mask, oldIndicator, stats)
        else
          let* (mask, stats) := markAll ids indicator 1 (mask, repeat 0%Z (length stats)) in
          Some (mask, indicator, stats)
  end.

(** feature_space_tabular.cpp, lines 201-227. *)
Definition filterSubspace (f : nat) (e : evaluated) (st : subspace) : option subspace :=
  let* (vec, st) := refresh f st in
  let* (vectorPtr, _) := aget (sCache st) f in
  let numModifications := sModifications st + 1 in
  let* (mask, indicator, stats) :=
    updateCoverageMaskAndStatistics (eStart e) (eEnd e) (eInverse e) vec (sIndicator st) numModifications
      (sMask st) (sStatistics st) in
  let reuse := match vectorPtr with Some _ => true | None => false end in
  let* vec' := filterByInterval reuse (eStart e) (eEnd e) (eInverse e) vec in
  let* cache := aset (sCache st) f (Some vec', numModifications) in
  Some (mkSubspace mask indicator numModifications (eCovered e) stats cache).

End Filter.
