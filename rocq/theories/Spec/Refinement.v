(** Specification of the search for refinements. *)
From Coq Require Import ZArith Arith List Bool Permutation Sorted.
From Verif Require Import Lib.Arr Model.Refinement.
Import ListNotations.
Open Scope nat_scope.

(** A quality is strictly better than another one: losses are minimised, heuristics maximised. *)
Definition better (k : learner) (a b : Z) : Prop := match k with Boosting => (a < b)%Z | SeCo => (a > b)%Z end.

(** [r] is the best of the candidates that are strictly better than [q], and the first one among equally good ones. *)
Definition first_best (k : learner) (q : Z) (cands : list candidate) (r : option candidate) : Prop :=
  match r with
  | Some c => exists pre post, cands = pre ++ c :: post /\ better k (cQuality c) q /\
      (forall x, In x pre -> better k (cQuality c) (cQuality x)) /\
      (forall x, In x post -> ~ better k (cQuality x) (cQuality c))
  | None => forall x, In x cands -> ~ better k (cQuality x) q
  end.

(** Sorted from best to worst. *)
Definition best_first (k : learner) (l : list candidate) : Prop :=
  StronglySorted (fun a b => ~ better k (cQuality b) (cQuality a)) l.
Definition best_entries_first (k : learner) (l : list entry) : Prop :=
  StronglySorted (fun a b => ~ better k (beQuality b) (beQuality a)) l.

(** What [std::sort] guarantees. *)
Definition sorting (k : learner) (sort : list candidate -> list candidate) : Prop :=
  forall l, Permutation l (sort l) /\ best_first k (sort l).
Definition sorting_entries (k : learner) (sort : list entry -> list entry) : Prop :=
  forall l, Permutation l (sort l) /\ best_entries_first k (sort l).

(** [out] contains the [n] best elements of [all], or all of them if there are fewer. *)
Definition n_best (k : learner) (n : nat) (all out : list candidate) : Prop :=
  best_first k out /\ length out = Nat.min n (length all) /\
  exists rest, Permutation all (out ++ rest) /\
    forall x y, In x out -> In y rest -> ~ better k (cQuality y) (cQuality x).

(** The program of one iteration of the parallel loop, for a feature with the given number of candidates. *)
Definition iterationProgram (numCandidates : nat -> nat) (i : nat) : list action :=
  Invoke i :: repeat (Evaluate i) (numCandidates i).

(** The feature vector that is searched for the feature [f], given the caches. *)
Definition searchedVector {V} (create : nat -> V) (filtered : V -> V) (numModifications : nat) (cache : list (option V))
    (cacheFiltered : list (option V * nat)) (f : nat) : V :=
  let '(v, n) := nth f cacheFiltered (None, 0) in
  let u := match v with Some u => u | None => match nth f cache None with Some u => u | None => create f end end in
  if n <? numModifications then filtered u else u.

(** The outputs for which the [i]-th condition may predict. *)
Definition allowedOutputs (maxHeadRefinements : nat) (outputs : list nat) (conditions : list candidate) : list nat :=
  match rev conditions with
  | c :: _ => if (1 <=? maxHeadRefinements) && (maxHeadRefinements <=? length conditions) then cOutputs c else outputs
  | [] => outputs
  end.

(** The quality of a rule is that of its last refinement. *)
Definition qualityOf (conditions : list candidate) : Z :=
  match rev conditions with c :: _ => cQuality c | [] => 0%Z end.

(** Insertion sort, to have an instance of [sorting] and [sorting_entries] at hand. *)
Fixpoint insertBy {A} (k : learner) (q : A -> Z) (x : A) (l : list A) : list A :=
  match l with
  | [] => [x]
  | y :: l' => if compare k (q y) (q x) then y :: insertBy k q x l' else x :: l
  end.
Definition sortBy {A} (k : learner) (q : A -> Z) (l : list A) : list A := fold_right (insertBy k q) [] l.
