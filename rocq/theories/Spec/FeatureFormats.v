(** Specification of the rules that can be learned from dense and sparse feature matrices. *)
From Coq Require Import ZArith Arith List Bool Permutation.
From Verif Require Import Model.Search Model.Filter Model.FeatureTypes Spec.Filter Spec.FeatureTypes.
Import ListNotations.
Open Scope nat_scope.

(** A condition that is found by a search and is not satisfied by all examples with non-zero weights that are covered so
    far. *)
Definition narrowing (isEqual : Z -> Z -> bool) (numExamples : nat) (weight : nat -> bool) (minCoverage : nat)
  (st : subspace) (conditions : list (nat * test)) (f : nat) (vec : fvec) (e : evaluated) : Prop :=
  found_condition isEqual numExamples weight minCoverage st conditions f vec e /\ eCovered e < sCovered st.

(** The conditions use the same feature. They are the same, unless the feature is ordinal. *)
Definition similar (ordinal : nat -> bool) (c1 c2 : nat * test) : Prop :=
  fst c1 = fst c2 /\ (ordinal (fst c1) = false -> snd c1 = snd c2).

(** The elements of a sparse matrix specify the same values as a dense one. *)
Definition same_values (values : list value32) (sparseValue : Z) (elements : list element) : Prop :=
  forall i, i < length values -> denseColumn values i = sparseColumn sparseValue elements i.

(** The subspaces and conditions that can result from searching features and adding conditions, one after the other.
    [copies]: whether subspaces may be copied in between (only done by beam searches). *)
Inductive learns (copies : bool) (isEqual : Z -> Z -> bool) (original : nat -> fvec) (numExamples numFeatures : nat)
  (weight : nat -> bool) (minCoverage : nat) : subspace -> list (nat * test) -> Prop :=
  | learns_new :
      learns copies isEqual original numExamples numFeatures weight minCoverage
        (newSubspace numExamples numFeatures (length (filter weight (seq 0 numExamples)))) []
  | learns_search f st conditions vec st' :
      learns copies isEqual original numExamples numFeatures weight minCoverage st conditions ->
      refresh isEqual original f st = Some (vec, st') ->
      learns copies isEqual original numExamples numFeatures weight minCoverage st' conditions
  | learns_copy st conditions :
      learns copies isEqual original numExamples numFeatures weight minCoverage st conditions -> copies = true ->
      learns copies isEqual original numExamples numFeatures weight minCoverage (copySubspace st) conditions
  | learns_filter f e st conditions vec st' st'' :
      learns copies isEqual original numExamples numFeatures weight minCoverage st conditions ->
      refresh isEqual original f st = Some (vec, st') ->
      narrowing isEqual numExamples weight minCoverage st' conditions f vec e ->
      filterSubspace isEqual original f e st = Some st'' ->
      learns copies isEqual original numExamples numFeatures weight minCoverage st'' (conditions ++ [(f, eTest e)]).

(** The vector of a nominal or ordinal feature, created from a dense or a sparse matrix, for any order in which hash maps
    are iterated. *)
Definition created (ordinal : bool) (values : list value32) (sparseValue : Z) (elements : list element) (vec : fvec) : Prop :=
  exists iterated sortValues, (forall m, Permutation (iterated m) m) /\ sortsValues sortValues /\
    (createCategoricalDense iterated sortValues ordinal values = Some vec \/
     createCategoricalSparse iterated sortValues ordinal (length values) sparseValue elements = Some vec).

(** A feature whose values can be represented by 32-bit integers and are not missing, according to matching dense and
    sparse matrices. No sparse values are stored, unless all values are. *)
Definition feature (numExamples : nat) (values : list value32) (sparseValue : Z) (elements : list element) : Prop :=
  length values = numExamples /\ allFit values /\ ~ In None values /\
  wellFormed numExamples elements /\ allFit (map snd elements) /\ same_values values sparseValue elements /\
  (noExplicitSparseValues sparseValue elements \/ length elements = numExamples).
