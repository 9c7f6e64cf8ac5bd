(** Property theorems about the filtering of feature vectors and examples. *)
From Coq Require Import ZArith Arith List Bool Sorted Lia.
From Verif Require Import Lib.Arr Model.Search Model.Filter Spec.Search Spec.Filter Spec.FilterBinned Proofs.Filter Proofs.FilterRun
  Proofs.FilterFound Proofs.FilterFindings Proofs.FilterBinned.
Import ListNotations.
Open Scope nat_scope.

(** ** C36: the interval that remains covered *)

Theorem C36_remaining_interval :
  forall (start end_ : nat) (inverse : bool) (maxIndex : nat),
    start <= end_ <= maxIndex -> (start = 0 \/ end_ = maxIndex) ->
    exists first last, getStartAndEndOfOpenInterval start end_ inverse maxIndex = (first, last) /\
      first <= last <= maxIndex /\
      forall k, k < maxIndex ->
        ((if inverse then ~ (start <= k < end_) else start <= k < end_) <-> first <= k < last).
Proof. exact open_interval. Qed.
Print Assumptions C36_remaining_interval.

Theorem C36_ordinal_intervals :
  forall (weight : nat -> bool) (total : list nat) (numWeighted minCoverage : nat) (values : list Z)
    (bins : list (list nat)) (majority : Z) (l : list evaluated) (e : evaluated),
    searchOrdinal weight total numWeighted minCoverage values bins majority = Some l -> In e l ->
    outer (length values) e.
Proof. exact ordinal_outer'. Qed.
Print Assumptions C36_ordinal_intervals.

Theorem C36_numerical_intervals :
  forall (weight : nat -> bool) (total : list nat) (numWeighted minCoverage : nat) (isEqual : Z -> Z -> bool)
    (v : list (nat * Z)) (sparseValue : Z) (sparse : bool) (l : list evaluated) (e : evaluated),
    searchNumerical weight total numWeighted minCoverage isEqual v sparseValue sparse = Some l -> In e l ->
    outer (length v) e.
Proof. exact numerical_outer'. Qed.
Print Assumptions C36_numerical_intervals.

Theorem C36_binned_intervals :
  forall (weight : nat -> bool) (total : list nat) (numWeighted minCoverage : nat) (thresholds : list Z)
    (bins : list (list nat)) (sparseBin : nat) (l : list evaluated) (e : evaluated),
    sparseBin < length bins ->
    searchBinned weight total numWeighted minCoverage thresholds bins sparseBin = Some l -> In e l ->
    outer (length bins) e.
Proof. exact binned_outer'. Qed.
Print Assumptions C36_binned_intervals.

Example C36_example :
  getStartAndEndOfOpenInterval 0 3 true 5 = (3, 5) /\ getStartAndEndOfOpenInterval 3 5 true 5 = (0, 3) /\
  getStartAndEndOfOpenInterval 3 5 false 5 = (3, 5) /\
  exists l, searchOrdinal always [0; 1; 2] 3 1 [1; 3]%Z [[0]; [1]] 2%Z = Some l /\ 0 < length l /\
    Forall (outer 2) l.
Proof.
  split; [reflexivity|split; [reflexivity|split; [reflexivity|]]]. eexists. split; [vm_compute; reflexivity|].
  split; [simpl; lia|]. repeat constructor; cbn; lia.
Qed.

(** ** C37: adding conditions *)

Theorem C37_conditions_partial :
  forall (isEqual : Z -> Z -> bool) (original : nat -> fvec) (cols : nat -> column) (numExamples numFeatures : nat)
    (weight : nat -> bool) (st : subspace) (conditions : list (nat * test)),
    (forall f, f < numFeatures -> represents (cols f) (seq 0 numExamples) (original f) /\ supported_by (cols f) (seq 0 numExamples) (original f)) ->
    reaches isEqual original numExamples numFeatures weight (exact_condition cols numExamples weight) st conditions ->
    correct_state cols numExamples weight st conditions.
Proof. exact exact_runs. Qed.
Print Assumptions C37_conditions_partial.

Theorem C37_categorical_partial :
  forall (isEqual : Z -> Z -> bool) (original : nat -> fvec) (cols : nat -> column)
    (numExamples numFeatures minCoverage : nat) (weight : nat -> bool) (allWeighted : bool) (st : subspace)
    (conditions : list (nat * test)),
    (forall f, f < numFeatures ->
       represents (cols f) (seq 0 numExamples) (original f) /\ categorical allWeighted (original f)) ->
    (allWeighted = true -> forall i, i < numExamples -> weight i = true) ->
    reaches isEqual original numExamples numFeatures weight (found_condition isEqual numExamples weight minCoverage)
      st conditions ->
    correct_state cols numExamples weight st conditions.
Proof. exact categorical_runs. Qed.
Print Assumptions C37_categorical_partial.

Theorem C37_progress_partial :
  forall (isEqual : Z -> Z -> bool) (original : nat -> fvec) (cols : nat -> column) (numExamples numFeatures : nat)
    (weight : nat -> bool) (st : subspace) (conditions : list (nat * test)) (f : nat),
    (forall f, f < numFeatures -> represents (cols f) (seq 0 numExamples) (original f) /\ supported_by (cols f) (seq 0 numExamples) (original f)) ->
    reaches isEqual original numExamples numFeatures weight (exact_condition cols numExamples weight) st conditions ->
    f < numFeatures ->
    exists vec st', refresh isEqual original f st = Some (vec, st') /\
      (vec <> EqualVec -> forall e, valid_interval vec e -> filterSubspace isEqual original f e st <> None).
Proof. exact progress. Qed.
Print Assumptions C37_progress_partial.

Theorem C37_numerical_refuted :
  exists original cols numExamples numFeatures st conditions,
    (forall f, f < numFeatures -> represents (cols f) (seq 0 numExamples) (original f) /\ supported (original f)) /\
    reaches Z.eqb original numExamples numFeatures always (found_condition Z.eqb numExamples always 1) st conditions /\
    ~ correct_state cols numExamples always st conditions.
Proof. exact numerical_run. Qed.
Print Assumptions C37_numerical_refuted.

Theorem C37_missing_values_refuted :
  exists original cols numExamples numFeatures st conditions i,
    (forall f, f < numFeatures -> represents (cols f) (seq 0 numExamples) (original f)) /\
    reaches Z.eqb original numExamples numFeatures always (exact_condition cols numExamples always) st conditions /\
    i < numExamples /\ satisfies cols conditions i = false /\ nth_error (sStatistics st) i = Some (-1)%Z.
Proof. exact missing_run. Qed.
Print Assumptions C37_missing_values_refuted.

(** Four examples and an ordinal and a nominal feature: two conditions are found and added. *)
Example C37_example :
  let cols f := match f with 0 => someTable [Some 1; Some 2; Some 3; Some 2]%Z
                           | _ => someTable [Some 7; Some 5; Some 5; Some 5]%Z end in
  let original f := match f with 0 => NominalVec Ordinal [1; 3]%Z [[0]; [2]] 2 []
                               | _ => NominalVec Nominal [7]%Z [[0]] 5 [] end in
  (forall f, f < 2 -> represents (cols f) (seq 0 4) (original f) /\ categorical true (original f)) /\
  exists st,
    reaches Z.eqb original 4 2 always (found_condition Z.eqb 4 always 1) st ([] ++ [(0, Leq 2)] ++ [(1, Neq 7)]) /\
    map (isCovered st) (seq 0 4) = [false; true; false; true] /\ sCovered st = 2 /\ sStatistics st = [0; 1; 0; 1]%Z.
Proof.
  split.
  - intros f Hf. destruct f as [|[|f]]; [| |lia]; (split; [|cbn; auto]); cbn [represents missingOf]; missings.
    + split; [|nonemptys]. split; [nominal|SearchFindings.ss].
    + split; [nominal|nonemptys].
  - eexists. split; [|split; [|split]].
    + change ([] ++ [(0, Leq 2)] ++ [(1, Neq 7)]) with (([] ++ [(0, eTest (mkEval [0; 1; 3] 1 2 true 3 (Leq 2)))]) ++
        [(1, eTest (mkEval [1; 3] 0 1 true 2 (Neq 7)))]).
      eapply reaches_filter; [eapply reaches_filter; [apply reaches_new|vm_compute; reflexivity| |vm_compute; reflexivity]
        |vm_compute; reflexivity| |vm_compute; reflexivity];
      (eexists; split; [vm_compute; reflexivity|simpl; auto 10]).
    + vm_compute. reflexivity.
    + reflexivity.
    + reflexivity.
Qed.

(** ** C84: filtered feature vectors *)

Theorem C84_filtered_vectors_partial :
  forall (isEqual : Z -> Z -> bool) (original : nat -> fvec) (cols : nat -> column) (numExamples numFeatures : nat)
    (weight : nat -> bool) (st : subspace) (conditions : list (nat * test)) (f : nat) (vec : fvec) (st' : subspace),
    (forall f, f < numFeatures -> represents (cols f) (seq 0 numExamples) (original f) /\ supported_by (cols f) (seq 0 numExamples) (original f)) ->
    reaches isEqual original numExamples numFeatures weight (exact_condition cols numExamples weight) st conditions ->
    refresh isEqual original f st = Some (vec, st') ->
    represents (cols f) (coveredBy cols numExamples conditions) vec.
Proof. exact refreshed. Qed.
Print Assumptions C84_filtered_vectors_partial.

Theorem C84_binned_refuted :
  exists original cols numExamples numFeatures st conditions f vec st' i,
    (forall f, f < numFeatures -> represents (cols f) (seq 0 numExamples) (original f)) /\
    reaches Z.eqb original numExamples numFeatures always (exact_condition cols numExamples always) st conditions /\
    refresh Z.eqb original f st = Some (vec, st') /\ In i (coveredBy cols numExamples conditions) /\
    ~ In i (concat (binsOf vec)) /\
    match vec with
    | BinnedVec thresholds _ sparseBin _ =>
        exists t, nth_error thresholds (sparseBin - 1) = Some t /\ 0 < sparseBin /\ (valueOf (cols f) i < t)%Z
    | _ => False
    end.
Proof. exact binned_filtered. Qed.
Print Assumptions C84_binned_refuted.

(** Filtering by a condition on a binned feature itself is exact, even if the examples in the sparse bin are not stored. *)
Theorem C84_binned_interval_partial :
  forall (isEqual : Z -> Z -> bool) (col : column) (examples : list nat) (thresholds : list Z) (bins : list (list nat))
    (sparseBin : nat) (missing : list nat) (reuse : bool) (start end_ : nat) (inverse : bool),
    represents col examples (BinnedVec thresholds bins sparseBin missing) ->
    start <= end_ <= length bins -> start = 0 \/ end_ = length bins ->
    exists first last vec,
      (forall k, k < length bins -> ((if inverse then ~ (start <= k < end_) else start <= k < end_) <-> first <= k < last)) /\
      last <= length bins /\
      filterByInterval isEqual reuse start end_ inverse (BinnedVec thresholds bins sparseBin missing) = Some vec /\
      if first <? last
      then vec <> EqualVec /\ represents col (filter (fun i => between_thresholds thresholds first last (valueOf col i)) (valued col examples)) vec
      else vec = EqualVec.
Proof. exact interval_binned. Qed.
Print Assumptions C84_binned_interval_partial.

(** After filtering by a coverage mask, the last of the remaining bins is always considered the sparse one. *)
Theorem C84_binned_sparse_bin_partial :
  forall (isEqual : Z -> Z -> bool) (covered : nat -> bool) (thresholds : list Z) (bins : list (list nat)) (sparseBin : nat)
    (missing : list nat) (thresholds' : list Z) (bins' : list (list nat)) (sparseBin' : nat) (missing' : list nat),
    filterByMask isEqual covered (BinnedVec thresholds bins sparseBin missing) =
      BinnedVec thresholds' bins' sparseBin' missing' ->
    S sparseBin' = length bins'.
Proof. exact mask_sparse. Qed.
Print Assumptions C84_binned_sparse_bin_partial.

Example C84_binned_interval_example :
  represents (cols3 1) (seq 0 5) (BinnedVec [10; 20; 30]%Z [[0]; []; [2]; [3]] 1 []) /\
  filterByInterval Z.eqb true 0 1 true (BinnedVec [10; 20; 30]%Z [[0]; []; [2]; [3]] 1 []) =
    Some (BinnedVec [20; 30]%Z [[]; [2]; [3]] 0 []) /\
  filter (fun i => between_thresholds [10; 20; 30]%Z 1 4 (valueOf (cols3 1) i)) (valued (cols3 1) (seq 0 5)) = [1; 2; 3; 4] /\
  filterByMask Z.eqb (fun i => negb (i =? 0)) (BinnedVec [10; 20; 30]%Z [[0]; []; [2]; [3]] 1 []) =
    BinnedVec [30]%Z [[2]; [3]] 1 [].
Proof. split; [apply (original3_represents 1); lia|]. repeat split. Qed.

Theorem C84_missing_values_refuted :
  exists original cols numExamples numFeatures st conditions f vec st',
    (forall f, f < numFeatures -> represents (cols f) (seq 0 numExamples) (original f)) /\
    reaches Z.eqb original numExamples numFeatures always (exact_condition cols numExamples always) st conditions /\
    refresh Z.eqb original f st = Some (vec, st') /\
    exists i, In i (missingOf vec) /\ ~ In i (coveredBy cols numExamples conditions).
Proof. exact missing_kept. Qed.
Print Assumptions C84_missing_values_refuted.

Example C84_example :
  represents (cols2 1) (seq 0 5) (original2 1) /\
  represents (cols2 1) [1; 3; 4] (NominalVec Nominal [1]%Z [[1]] 0 [4]) /\
  filterByMask Z.eqb (fun i => existsb (Nat.eqb i) [1; 3; 4]) (original2 1) = NominalVec Nominal [1]%Z [[1]] 0 [4].
Proof.
  split; [apply original2_represents; lia|split; [|reflexivity]]. cbn [represents missingOf]. missings.
  split; [nominal|nonemptys].
Qed.

(** A binned feature without a sparse value: the bins are those of the covered examples after adding a condition on another feature and
    one on the feature itself. *)
Example C84_binned_example :
  let cols f := match f with 0 => someTable [Some 0; Some 1; Some 0; Some 0; Some 0]%Z
                           | _ => someTable [Some 1; Some 5; Some 2; Some 9; Some 6]%Z end in
  let original f := match f with 0 => NominalVec Binary [1]%Z [[1]] 0 []
                               | _ => BinnedVec [3; 5; 7]%Z [[0; 2]; [1]; [4]; [3]] 3 [] end in
  (forall f, f < 2 -> represents (cols f) (seq 0 5) (original f) /\ supported_by (cols f) (seq 0 5) (original f)) /\
  exists st vec st',
    reaches Z.eqb original 5 2 always (exact_condition cols 5 always) st ([] ++ [(0, Eq 0)] ++ [(1, Gr 3)]) /\
    refresh Z.eqb original 1 st = Some (vec, st') /\ vec = BinnedVec [7]%Z [[4]; [3]] 1 [].
Proof.
  split.
  - intros f Hf. destruct f as [|[|f]]; [| |lia].
    + split; [|exact I]. cbn [represents missingOf]. missings. split; [nominal|split; [nonemptys|reflexivity]].
    + split; [cbn [represents missingOf]; missings|split; [nonemptys|vm_compute; intros i Hi; tauto]].
      split; [bins|]. split; [SearchFindings.ss|]. split; [reflexivity|]. split; [simpl; lia|]. intros i Hi.
      assert (Hi': i = 0 \/ i = 1 \/ i = 2 \/ i = 3 \/ i = 4) by (vm_compute in Hi; lia).
      exists (nth i [0; 1; 0; 3; 2] 0).
      destruct Hi' as [->|[->|[->|[->| ->]]]]; cbn [nth]; (split; [simpl; lia|split;
        [simpl; intros t H; try discriminate; injection H as <-; vm_compute; discriminate|split;
        [intros t q Hq; try discriminate; injection Hq as <-; simpl; intros H; injection H as <-; vm_compute; reflexivity|split;
        [intros N; first [congruence|eexists; eexists; split; [split; [apply le_n|apply Nat.lt_succ_diag_r]|split; [reflexivity|simpl; auto]]]
        |intros N; try discriminate; intros q ids Eq Hq;
         do 4 (destruct q as [|q]; [injection Eq as <-; simpl in Hq; intuition discriminate|]); destruct q; discriminate]]]]).
  - eexists. eexists. eexists. split.
    { change ([] ++ [(0, Eq 0)] ++ [(1, Gr 3)]) with (([] ++ [(0, eTest (mkEval [] 0 1 true 4 (Eq 0)))]) ++
      [(1, eTest (mkEval [] 1 3 false 2 (Gr 3)))]).
    eapply reaches_filter; [eapply reaches_filter; [apply reaches_new|vm_compute; reflexivity| |vm_compute; reflexivity]; exactc
      |vm_compute; reflexivity| |vm_compute; reflexivity]; exactc. }
    split; [vm_compute; reflexivity|reflexivity].
Qed.

(** ** C85: features that are no longer considered *)

Theorem C85_equal_values_partial :
  forall (isEqual : Z -> Z -> bool) (col : column) (examples : list nat) (covered : nat -> bool) (vec : fvec),
    vec <> EqualVec -> unbinned vec \/ supported_by col examples vec -> represents col examples vec -> filterByMask isEqual covered vec = EqualVec ->
    exists a b, (a = b \/ isEqual a b = true) /\
      forall i, In i (valued col examples) -> covered i = true -> (a <= valueOf col i <= b)%Z.
Proof. exact mask_equal. Qed.
Print Assumptions C85_equal_values_partial.

Theorem C85_nominal_refuted :
  exists original cols numExamples numFeatures st conditions f st' values bins majority i j,
    (forall f, f < numFeatures -> represents (cols f) (seq 0 numExamples) (original f) /\ supported (original f)) /\
    original f = NominalVec Nominal values bins majority [] /\
    reaches Z.eqb original numExamples numFeatures always (found_condition Z.eqb numExamples always 1) st conditions /\
    refresh Z.eqb original f st = Some (EqualVec, st') /\
    In i (coveredBy cols numExamples conditions) /\ In j (coveredBy cols numExamples conditions) /\
    cols f i <> cols f j.
Proof. exact nominal_equal. Qed.
Print Assumptions C85_nominal_refuted.

Theorem C85_numerical_refuted :
  exists original cols numExamples numFeatures st conditions f st' v i j,
    (forall f, f < numFeatures -> represents (cols f) (seq 0 numExamples) (original f) /\ supported (original f)) /\
    original f = NumericalVec v 0 false [] /\
    reaches Z.eqb original numExamples numFeatures always (found_condition Z.eqb numExamples always 1) st conditions /\
    refresh Z.eqb original f st = Some (EqualVec, st') /\
    In i (coveredBy cols numExamples conditions) /\ In j (coveredBy cols numExamples conditions) /\
    cols f i <> cols f j.
Proof. exact numerical_equal. Qed.
Print Assumptions C85_numerical_refuted.

Example C85_example :
  filterByMask Z.eqb (fun i => 2 <=? i) (original4 0) = EqualVec /\
  filterByMask Z.eqb (fun i => (i =? 2) || (i =? 3)) (original5 0) = EqualVec /\
  filterByMask Z.eqb (fun i => 2 <=? i) (original5 0) <> EqualVec.
Proof. split; [reflexivity|split; [reflexivity|vm_compute; discriminate]]. Qed.

(** ** C86: replaying conditions *)

Theorem C86_positions_partial :
  forall (isEqual : Z -> Z -> bool) (original : nat -> fvec) (cols : nat -> column) (numExamples numFeatures : nat)
    (weight : nat -> bool) (st1 : subspace) (conditions1 : list (nat * test)) (st2 : subspace)
    (conditions2 : list (nat * test)) (f : nat) (vec1 : fvec) (st1' : subspace) (vec2 : fvec) (st2' : subspace),
    (forall f, f < numFeatures -> represents (cols f) (seq 0 numExamples) (original f) /\ supported_by (cols f) (seq 0 numExamples) (original f)) ->
    reaches isEqual original numExamples numFeatures weight (exact_condition cols numExamples weight) st1 conditions1 ->
    reaches isEqual original numExamples numFeatures weight (exact_condition cols numExamples weight) st2 conditions2 ->
    coveredBy cols numExamples conditions1 = coveredBy cols numExamples conditions2 ->
    refresh isEqual original f st1 = Some (vec1, st1') -> refresh isEqual original f st2 = Some (vec2, st2') ->
    vec1 = EqualVec \/ vec2 = EqualVec \/ same_but_sparse vec1 vec2.
Proof. exact same_positions. Qed.
Print Assumptions C86_positions_partial.

Theorem C86_exception_refuted :
  exists original cols numExamples numFeatures st1 st2 conditions f e vec1 st1',
    (forall f, f < numFeatures -> represents (cols f) (seq 0 numExamples) (original f) /\ supported (original f)) /\
    reaches Z.eqb original numExamples numFeatures always (found_condition Z.eqb numExamples always 1) st1 conditions /\
    reaches Z.eqb original numExamples numFeatures always (found_condition Z.eqb numExamples always 1) st2 conditions /\
    refresh Z.eqb original f st1 = Some (vec1, st1') /\
    found_condition Z.eqb numExamples always 1 st1' conditions f vec1 e /\
    filterSubspace Z.eqb original f e st1 <> None /\ filterSubspace Z.eqb original f e st2 = None.
Proof. exact nominal_replay. Qed.
Print Assumptions C86_exception_refuted.

Theorem C86_binned_refuted :
  exists original cols numExamples numFeatures st1 st2 conditions f e vec1 st1' vec2 st2',
    (forall f, f < numFeatures -> represents (cols f) (seq 0 numExamples) (original f)) /\
    reaches Z.eqb original numExamples numFeatures always (exact_condition cols numExamples always) st1 conditions /\
    reaches Z.eqb original numExamples numFeatures always (exact_condition cols numExamples always) st2 conditions /\
    refresh Z.eqb original f st1 = Some (vec1, st1') /\
    exact_condition cols numExamples always st1' conditions f vec1 e /\
    refresh Z.eqb original f st2 = Some (vec2, st2') /\ vec2 <> EqualVec /\
    filterSubspace Z.eqb original f e st1 <> None /\ filterSubspace Z.eqb original f e st2 = None.
Proof. exact binned_positions. Qed.
Print Assumptions C86_binned_refuted.

(** With and without a copy after the first of two conditions. *)
Example C86_example :
  let c1 := mkEval [] 0 1 true 4 (Eq 0) in
  let c2 := mkEval [] 0 1 true 2 (Neq 1) in
  let st := newSubspace 5 2 5 in
  exists st1, filterSubspace Z.eqb original2 0 c1 st = Some st1 /\
  exists st2 st2', filterSubspace Z.eqb original2 1 c2 st1 = Some st2 /\
    filterSubspace Z.eqb original2 1 c2 (copySubspace st1) = Some st2' /\
    map (isCovered st2) (seq 0 5) = map (isCovered st2') (seq 0 5).
Proof.
  eexists. split; [vm_compute; reflexivity|]. eexists. eexists. split; [vm_compute; reflexivity|].
  split; [vm_compute; reflexivity|]. reflexivity.
Qed.

(** ** C87: resetting a subspace *)

Theorem C87_reset_partial :
  forall (isEqual : Z -> Z -> bool) (original : nat -> fvec) (cols : nat -> column) (numExamples numFeatures : nat)
    (weight : nat -> bool) (st : subspace) (conditions : list (nat * test)),
    (forall f, f < numFeatures -> represents (cols f) (seq 0 numExamples) (original f) /\ supported_by (cols f) (seq 0 numExamples) (original f)) ->
    reaches isEqual original numExamples numFeatures weight (exact_condition cols numExamples weight) st conditions ->
    let numWeighted := length (filter weight (seq 0 numExamples)) in
    let new := newSubspace numExamples numFeatures numWeighted in
    let reset := resetSubspace numWeighted st in
    sMask reset = sMask new /\ sIndicator reset = sIndicator new /\ sModifications reset = sModifications new /\
    sCovered reset = sCovered new /\ sCache reset = sCache new.
Proof. exact reset_new. Qed.
Print Assumptions C87_reset_partial.

Theorem C87_statistics_refuted :
  exists original cols numExamples numFeatures st conditions,
    (forall f, f < numFeatures -> represents (cols f) (seq 0 numExamples) (original f) /\ supported (original f)) /\
    reaches Z.eqb original numExamples numFeatures always (found_condition Z.eqb numExamples always 1) st conditions /\
    sStatistics (resetSubspace numExamples st) <> sStatistics (newSubspace numExamples numFeatures numExamples).
Proof. exact reset_statistics. Qed.
Print Assumptions C87_statistics_refuted.

Example C87_example :
  exists st, filterSubspace Z.eqb original2 0 (mkEval [] 0 1 true 4 (Eq 0)) (newSubspace 5 2 5) = Some st /\
    isCovered st 0 = false /\ isCovered (resetSubspace 5 st) 0 = true.
Proof. eexists. split; [vm_compute; reflexivity|]. split; reflexivity. Qed.
