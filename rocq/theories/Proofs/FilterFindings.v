(** Counterexamples to properties of the filtering. *)
From Coq Require Import ZArith Arith List Bool Sorted Lia.
From Verif Require Import Lib.Arr Model.Search Model.Filter Spec.Search Spec.Filter Proofs.Search Proofs.SearchFindings
  Proofs.Filter.
Import ListNotations.
Open Scope nat_scope.

Definition exact_interval_b (examples : list nat) (value : nat -> Z) (bins : list (list nat)) (e : evaluated) : bool :=
  forallb (fun i => Bool.eqb (holds (eTest e) (value i))
    (xorb (eInverse e) (existsb (Nat.eqb i) (concat (slice (eStart e) (eEnd e) bins))))) examples.

Lemma exact_b examples value bins e : exact_interval_b examples value bins e = true ->
  exact_interval examples value bins e.
Proof.
  intros H i Hi. unfold exact_interval_b in H. rewrite forallb_forall in H. apply H in Hi. apply eqb_prop in Hi.
  rewrite Hi. assert (B := between_slice bins (eStart e) (eEnd e) i). rewrite <- existsb_In in B.
  destruct (eInverse e), (existsb _ _); cbn; intuition discriminate.
Qed.

Definition bins_b (examples : list nat) (bins : list (list nat)) : bool :=
  forallb (fun i => existsb (Nat.eqb i) examples) (concat bins).

Ltac all_in := intros ? ?H; simpl in *; tauto.
Ltac values := let p := fresh "p" in intros p; do 5 (destruct p as [|p]; [simpl; intros ids v i H1 H2 H3; try discriminate;
  injection H1 as <-; injection H2 as <-; simpl in H3; intuition; subst; reflexivity|]);
  simpl; intros; destruct p; discriminate.
Ltac bins := split; [vm_compute; nd|split; [simpl; nd|intros ? ?H; vm_compute; simpl in *; tauto]].
Ltac nominal := split; [bins|split; [reflexivity|split; [nd|split; [values|intros i H1 H2; vm_compute in H1; simpl in H2; intuition; subst; reflexivity]]]].
Ltac missings := split; [simpl; nd|split; [intros i; simpl; split; [intuition; subst; auto|intros (H & E); simpl in H; intuition; subst; try reflexivity; discriminate]|]].
Ltac nonemptys := repeat constructor; discriminate.

Definition someTable (l : list (option Z)) (i : nat) : option Z := nth i l None.

(** ** A numerical feature *)

Definition original1 (f : nat) : fvec := NumericalVec [(0, 1%Z); (1, 10%Z)] 0 true [].
Definition cols1 (f : nat) : column := someTable [Some 1; Some 10; Some 0]%Z.

Lemma numerical_run : exists original cols numExamples numFeatures st conditions,
  (forall f, f < numFeatures -> represents (cols f) (seq 0 numExamples) (original f) /\ supported (original f)) /\
  reaches Z.eqb original numExamples numFeatures always (found_condition Z.eqb numExamples always 1) st conditions /\
  ~ correct_state cols numExamples always st conditions.
Proof.
  exists original1, cols1, 3, 1. eexists. eexists. split; [|split].
  - intros f Hf. split; [|exact I]. unfold original1. cbn [represents missingOf]. missings.
    change (valued (cols1 f) (seq 0 3)) with [0; 1; 2]. nv.
  - eapply (reaches_filter _ _ _ _ _ _ 0 (mkEval [1] 0 2 false 1 (GrMean 0 10))); [apply reaches_new|vm_compute; reflexivity| |vm_compute; reflexivity].
    unfold found_condition. eexists. split; [vm_compute; reflexivity|]. simpl. auto.
  - intros (H & _). specialize (H 0 ltac:(lia)). vm_compute in H. discriminate.
Qed.

(** ** A nominal feature with missing values *)

Definition original2 (f : nat) : fvec :=
  match f with
  | 0 => NominalVec Binary [1%Z] [[0]] 0 []
  | _ => NominalVec Nominal [1; 2]%Z [[1]; [2]] 0 [4]
  end.
Definition cols2 (f : nat) : column :=
  match f with
  | 0 => someTable [Some 1; Some 0; Some 0; Some 0; Some 0]%Z
  | _ => someTable [Some 0; Some 1; Some 2; Some 0; None]%Z
  end.

Lemma original2_represents f : f < 2 -> represents (cols2 f) (seq 0 5) (original2 f).
Proof.
  intros Hf. destruct f as [|[|f]]; [| |lia]; cbn [represents original2 missingOf]; missings.
  - split; [nominal|split; [nonemptys|reflexivity]].
  - split; [nominal|nonemptys].
Qed.

Ltac exactc := split; [split; [cbn; lia|cbn; auto]|split; [apply exact_b; vm_compute; reflexivity|vm_compute; reflexivity]].

Lemma missing_run : exists original cols numExamples numFeatures st conditions i,
  (forall f, f < numFeatures -> represents (cols f) (seq 0 numExamples) (original f)) /\
  reaches Z.eqb original numExamples numFeatures always (exact_condition cols numExamples always) st conditions /\
  i < numExamples /\ satisfies cols conditions i = false /\ nth_error (sStatistics st) i = Some (-1)%Z.
Proof.
  exists original2, cols2, 5, 2. eexists. eexists. exists 4. split; [exact original2_represents|split].
  - eapply (reaches_filter _ _ _ _ _ _ 1 (mkEval [] 0 1 true 1 (Neq 2)));
      [eapply (reaches_filter _ _ _ _ _ _ 1 (mkEval [] 0 1 true 2 (Neq 1)));
       [eapply (reaches_filter _ _ _ _ _ _ 0 (mkEval [] 0 1 true 4 (Eq 0))); [apply reaches_new|vm_compute; reflexivity| |vm_compute; reflexivity]; exactc
       |vm_compute; reflexivity| |vm_compute; reflexivity]; exactc
      |vm_compute; reflexivity| |vm_compute; reflexivity]; exactc.
  - split; [lia|split; vm_compute; reflexivity].
Qed.

Lemma missing_kept : exists original cols numExamples numFeatures st conditions f vec st',
  (forall f, f < numFeatures -> represents (cols f) (seq 0 numExamples) (original f)) /\
  reaches Z.eqb original numExamples numFeatures always (exact_condition cols numExamples always) st conditions /\
  refresh Z.eqb original f st = Some (vec, st') /\
  exists i, In i (missingOf vec) /\ ~ In i (coveredBy cols numExamples conditions).
Proof.
  exists original2, cols2, 5, 2. eexists. eexists. exists 1. eexists. eexists. split; [exact original2_represents|split; [|split]].
  - eapply (reaches_filter _ _ _ _ _ _ 1 (mkEval [] 0 1 true 2 (Neq 1)));
      [eapply (reaches_filter _ _ _ _ _ _ 0 (mkEval [] 0 1 true 4 (Eq 0))); [apply reaches_new|vm_compute; reflexivity| |vm_compute; reflexivity]; exactc
      |vm_compute; reflexivity| |vm_compute; reflexivity]; exactc.
  - vm_compute; reflexivity.
  - exists 4. split; [simpl; auto|vm_compute; intuition discriminate].
Qed.

(** ** A binned feature *)

Definition original3 (f : nat) : fvec :=
  match f with
  | 0 => NominalVec Binary [1%Z] [[4]] 0 []
  | _ => BinnedVec [10; 20; 30]%Z [[0]; []; [2]; [3]] 1 []
  end.
Definition cols3 (f : nat) : column :=
  match f with
  | 0 => someTable [Some 0; Some 0; Some 0; Some 0; Some 1]%Z
  | _ => someTable [Some 5; Some 15; Some 25; Some 35; Some 15]%Z
  end.

Ltac place p := exists p; split; [simpl; lia|split; [simpl; intros t H; injection H as <-; vm_compute; discriminate ||
    (simpl; intros t H; discriminate)|split; [|split]]].

Lemma original3_represents f : f < 2 -> represents (cols3 f) (seq 0 5) (original3 f).
Proof.
  intros Hf. destruct f as [|[|f]]; [| |lia]; cbn [represents original3 missingOf]; missings.
  - split; [nominal|split; [nonemptys|reflexivity]].
  - change (valued (cols3 1) (seq 0 5)) with [0; 1; 2; 3; 4]. split; [bins|]. split; [ss|]. split; [reflexivity|].
    split; [simpl; lia|]. intros i Hi.
    assert (Hi': i = 0 \/ i = 1 \/ i = 2 \/ i = 3 \/ i = 4) by (simpl in Hi; lia).
    exists (nth i [0; 1; 2; 3; 1] 0).
    destruct Hi' as [->|[->|[->|[->| ->]]]]; cbn [nth]; (split; [simpl; lia|split;
      [simpl; intros t H; try discriminate; injection H as <-; vm_compute; discriminate|split;
      [intros t q Hq; try discriminate; injection Hq as <-; simpl; intros H; injection H as <-; vm_compute; reflexivity|split;
      [intros N; first [congruence|eexists; eexists; split; [split; [apply le_n|apply Nat.lt_succ_diag_r]|split; [reflexivity|simpl; auto]]]
      |intros N; try discriminate; intros q ids Eq Hq;
       do 4 (destruct q as [|q]; [injection Eq as <-; simpl in Hq; intuition discriminate|]); destruct q; discriminate]]]]).
Qed.

Lemma binned_filtered : exists original cols numExamples numFeatures st conditions f vec st' i,
  (forall f, f < numFeatures -> represents (cols f) (seq 0 numExamples) (original f)) /\
  reaches Z.eqb original numExamples numFeatures always (exact_condition cols numExamples always) st conditions /\
  refresh Z.eqb original f st = Some (vec, st') /\ In i (coveredBy cols numExamples conditions) /\
  ~ In i (concat (binsOf vec)) /\
  match vec with
  | BinnedVec thresholds _ sparseBin _ =>
      exists t, nth_error thresholds (sparseBin - 1) = Some t /\ 0 < sparseBin /\ (valueOf (cols f) i < t)%Z
  | _ => False
  end.
Proof.
  exists original3, cols3, 5, 2. eexists. eexists. exists 1. eexists. eexists. exists 1.
  split; [exact original3_represents|split; [|split; [|split; [|split]]]].
  - eapply (reaches_filter _ _ _ _ _ _ 0 (mkEval [] 0 1 true 4 (Eq 0))); [apply reaches_new|vm_compute; reflexivity| |vm_compute; reflexivity]; exactc.
  - vm_compute; reflexivity.
  - vm_compute. auto.
  - simpl. intuition discriminate.
  - simpl. eexists. split; [reflexivity|]. split; [lia|]. vm_compute. reflexivity.
Qed.

Lemma binned_positions : exists original cols numExamples numFeatures st1 st2 conditions f e vec1 st1' vec2 st2',
  (forall f, f < numFeatures -> represents (cols f) (seq 0 numExamples) (original f)) /\
  reaches Z.eqb original numExamples numFeatures always (exact_condition cols numExamples always) st1 conditions /\
  reaches Z.eqb original numExamples numFeatures always (exact_condition cols numExamples always) st2 conditions /\
  refresh Z.eqb original f st1 = Some (vec1, st1') /\ exact_condition cols numExamples always st1' conditions f vec1 e /\
  refresh Z.eqb original f st2 = Some (vec2, st2') /\ vec2 <> EqualVec /\
  filterSubspace Z.eqb original f e st1 <> None /\ filterSubspace Z.eqb original f e st2 = None.
Proof.
  exists original3, cols3, 5, 2. eexists. eexists. exists [(1, Leq 30)], 1, (mkEval [3] 2 3 false 1 (Gr 20)).
  eexists. eexists. eexists. eexists.
  split; [exact original3_represents|split; [|split]].
  - change [(1, Leq 30)] with ([] ++ [(1, eTest (mkEval [] 3 4 true 4 (Leq 30)))]).
    eapply reaches_filter; [apply reaches_new|vm_compute; reflexivity| |vm_compute; reflexivity]; exactc.
  - apply reaches_copy. change [(1, Leq 30)] with ([] ++ [(1, eTest (mkEval [] 3 4 true 4 (Leq 30)))]).
    eapply reaches_filter; [apply reaches_new|vm_compute; reflexivity| |vm_compute; reflexivity]; exactc.
  - split; [vm_compute; reflexivity|split; [exactc|split; [vm_compute; reflexivity|split; [discriminate|split]]]].
    + vm_compute. discriminate.
    + vm_compute. reflexivity.
Qed.

(** ** A nominal feature *)

Definition original4 (f : nat) : fvec := NominalVec Nominal [1; 2]%Z [[0]; [1]] 0 [].
Definition cols4 (f : nat) : column := someTable [Some 1; Some 2; Some 0]%Z.

Lemma original4_represents f : represents (cols4 f) (seq 0 3) (original4 f) /\ supported (original4 f).
Proof. split; [|reflexivity]. cbn [represents original4 missingOf]. missings. split; [nominal|nonemptys]. Qed.

Lemma nominal_equal : exists original cols numExamples numFeatures st conditions f st' values bins majority i j,
  (forall f, f < numFeatures -> represents (cols f) (seq 0 numExamples) (original f) /\ supported (original f)) /\
  original f = NominalVec Nominal values bins majority [] /\
  reaches Z.eqb original numExamples numFeatures always (found_condition Z.eqb numExamples always 1) st conditions /\
  refresh Z.eqb original f st = Some (EqualVec, st') /\
  In i (coveredBy cols numExamples conditions) /\ In j (coveredBy cols numExamples conditions) /\ cols f i <> cols f j.
Proof.
  exists original4, cols4, 3, 1. eexists. exists [(0, Neq 0)], 0. eexists. eexists. eexists. eexists. exists 0, 1.
  split; [intros; apply original4_represents|split; [reflexivity|split]].
  - change [(0, Neq 0)] with ([] ++ [(0, eTest (mkEval [0; 1] 0 2 false 2 (Neq 0)))]).
    eapply reaches_filter; [apply reaches_new|vm_compute; reflexivity| |vm_compute; reflexivity].
    eexists. split; [vm_compute; reflexivity|]. simpl. auto 10.
  - split; [vm_compute; reflexivity|]. split; [vm_compute; auto|split; [vm_compute; auto|vm_compute; discriminate]].
Qed.

Lemma nominal_replay : exists original cols numExamples numFeatures st1 st2 conditions f e vec1 st1',
  (forall f, f < numFeatures -> represents (cols f) (seq 0 numExamples) (original f) /\ supported (original f)) /\
  reaches Z.eqb original numExamples numFeatures always (found_condition Z.eqb numExamples always 1) st1 conditions /\
  reaches Z.eqb original numExamples numFeatures always (found_condition Z.eqb numExamples always 1) st2 conditions /\
  refresh Z.eqb original f st1 = Some (vec1, st1') /\
  found_condition Z.eqb numExamples always 1 st1' conditions f vec1 e /\
  filterSubspace Z.eqb original f e st1 <> None /\ filterSubspace Z.eqb original f e st2 = None.
Proof.
  exists original4, cols4, 3, 1. eexists. eexists. exists [(0, Neq 0)], 0, (mkEval [0] 0 1 false 1 (Eq 1)).
  eexists. eexists.
  split; [intros; apply original4_represents|split; [|split]].
  - apply reaches_copy. change [(0, Neq 0)] with ([] ++ [(0, eTest (mkEval [0; 1] 0 2 false 2 (Neq 0)))]).
    eapply reaches_filter; [apply reaches_new|vm_compute; reflexivity| |vm_compute; reflexivity].
    eexists. split; [vm_compute; reflexivity|]. simpl. auto 10.
  - change [(0, Neq 0)] with ([] ++ [(0, eTest (mkEval [0; 1] 0 2 false 2 (Neq 0)))]).
    eapply reaches_filter; [apply reaches_new|vm_compute; reflexivity| |vm_compute; reflexivity].
    eexists. split; [vm_compute; reflexivity|]. simpl. auto 10.
  - split; [vm_compute; reflexivity|split; [eexists; split; [vm_compute; reflexivity|simpl; auto]|split]].
    + vm_compute. discriminate.
    + vm_compute. reflexivity.
Qed.

(** ** The comparison of the wrong elements *)

Definition original5 (f : nat) : fvec := NumericalVec [(0, 0%Z); (1, 1%Z); (2, 2%Z); (3, 2%Z); (4, 3%Z)] 0 false [].
Definition cols5 (f : nat) : column := someTable [Some 0; Some 1; Some 2; Some 2; Some 3]%Z.

Lemma numerical_equal : exists original cols numExamples numFeatures st conditions f st' v i j,
  (forall f, f < numFeatures -> represents (cols f) (seq 0 numExamples) (original f) /\ supported (original f)) /\
  original f = NumericalVec v 0 false [] /\
  reaches Z.eqb original numExamples numFeatures always (found_condition Z.eqb numExamples always 1) st conditions /\
  refresh Z.eqb original f st = Some (EqualVec, st') /\
  In i (coveredBy cols numExamples conditions) /\ In j (coveredBy cols numExamples conditions) /\ cols f i <> cols f j.
Proof.
  exists original5, cols5, 5, 1. eexists. exists [(0, GrMean 1 2)], 0. eexists. eexists. exists 2, 4. split; [|split; [reflexivity|split]].
  - intros f Hf. split; [|exact I]. unfold original5. cbn [represents missingOf]. missings.
    change (valued (cols5 f) (seq 0 5)) with [0; 1; 2; 3; 4]. nv.
  - change [(0, GrMean 1 2)] with ([] ++ [(0, eTest (mkEval [4; 3; 2] 2 5 false 3 (GrMean 1 2)))]).
    eapply reaches_filter; [apply reaches_new|vm_compute; reflexivity| |vm_compute; reflexivity].
    eexists. split; [vm_compute; reflexivity|]. simpl. auto 10.
  - split; [vm_compute; reflexivity|]. split; [vm_compute; auto|split; [vm_compute; auto|vm_compute; discriminate]].
Qed.

(** ** Resetting a subspace *)

Lemma reset_statistics : exists original cols numExamples numFeatures st conditions,
  (forall f, f < numFeatures -> represents (cols f) (seq 0 numExamples) (original f) /\ supported (original f)) /\
  reaches Z.eqb original numExamples numFeatures always (found_condition Z.eqb numExamples always 1) st conditions /\
  sStatistics (resetSubspace numExamples st) <> sStatistics (newSubspace numExamples numFeatures numExamples).
Proof.
  exists original4, cols4, 3, 1. eexists. exists [(0, Neq 0)].
  split; [intros; apply original4_represents|split].
  - change [(0, Neq 0)] with ([] ++ [(0, eTest (mkEval [0; 1] 0 2 false 2 (Neq 0)))]).
    eapply reaches_filter; [apply reaches_new|vm_compute; reflexivity| |vm_compute; reflexivity].
    eexists. split; [vm_compute; reflexivity|]. simpl. auto 10.
  - vm_compute. discriminate.
Qed.
