(** Rules that can only be learned from one of a dense and a sparse matrix. *)
From Coq Require Import ZArith Arith List Bool Permutation Lia.
From Verif Require Import Lib.Arr Model.Search Model.Filter Spec.Search Spec.Filter Model.FeatureTypes Spec.FeatureTypes.
From Verif Require Import Proofs.SearchFindings Proofs.FilterRun Proofs.FilterFound Proofs.FeatureTypes Proofs.FeatureVectors Spec.FeatureFormats
  Proofs.FeatureFormats.
From Verif Require Import Spec.FeatureTypes.
Import ListNotations.
Open Scope nat_scope.

Definition integer (x : Z) : value32 := Some (x * unit32)%Z.

Ltac fitting := let x := fresh "x" in let H := fresh "H" in intros x H; vm_compute in H;
  repeat (destruct H as [H|H]; [injection H as <-; vm_compute; split; [discriminate|reflexivity]|]); destruct H.
Ltac present := let H := fresh "H" in intros H; vm_compute in H; repeat (destruct H as [H|H]; [discriminate H|]); destruct H.
Ltac formed := split; [vm_compute; nd|let e := fresh "e" in let H := fresh "H" in intros e H; repeat (destruct H as [<-|H]; [vm_compute; lia|]); destruct H].
Ltac matching := let i := fresh "i" in let H := fresh "H" in intros i H; vm_compute in H;
  repeat (destruct i as [|i]; [vm_compute; reflexivity|]); lia.
Ltac implicit := left; let i := fresh "i" in let x := fresh "x" in let H := fresh "H" in intros i x H; vm_compute in H;
  repeat (destruct H as [H|H]; [injection H as <- <-; vm_compute; discriminate|]); destruct H.
Ltac isFeature := split; [reflexivity|split; [fitting|split; [present|split; [formed|split; [fitting|split; [matching|implicit]]]]]].
Ltac fromDense := exists (fun m => m), sortZ; split; [reflexivity|split; [exact sortZ_sorts|left; vm_compute; reflexivity]].
Ltac fromSparse := exists (fun m => m), sortZ; split; [reflexivity|split; [exact sortZ_sorts|right; vm_compute; reflexivity]].

(** ** Several conditions that use the same nominal feature *)

Definition values1 : list value32 := map integer [1; 1; 1; 0; 2; 3]%Z.
Definition elements1 : list element := [(0, integer 1); (1, integer 1); (2, integer 1); (4, integer 2); (5, integer 3)].
Definition dense1 : nat -> fvec := fun _ => NominalVec Nominal [0; 2; 3]%Z [[3]; [4]; [5]] 1 [].
Definition sparse1 : nat -> fvec := fun _ => NominalVec Nominal [1; 2; 3]%Z [[2; 1; 0]; [4]; [5]] 0 [].

Local Notation new1 := (newSubspace 6 1 (length (filter always (seq 0 6)))).

Lemma sparse1_runs st cs : learns false Z.eqb sparse1 6 1 always 1 st cs ->
  length (sCache st) = 1 /\ (cs = [] -> st = new1) /\
  (cs = [(0, Neq 0)] -> refresh Z.eqb sparse1 0 st = Some (EqualVec, st)) /\ cs <> [(0, Neq 0); (0, Neq 2)].
Proof.
  induction 1 as [|f st cs vec st' H (IL & I1 & I2 & I3) E|st cs H IH C|f e st cs vec st' st'' H (IL & I1 & I2 & I3) E (HF & HN) EF].
  - repeat split; discriminate.
  - assert (f = 0) as ->.
    { unfold refresh, aget in E. destruct (nth_error (sCache st) f) eqn:X; [|discriminate]. assert (f < 1) by (rewrite <- IL; apply nth_error_Some; congruence). lia. }
    assert (L: length (sCache st') = 1).
    { unfold refresh in E. destruct (aget (sCache st) 0) as [(p, m)|]; [|discriminate]. destruct (m <? sModifications st); [|injection E as <- <-; auto].
      destruct (aset _ _ _) eqn:A; [|discriminate]. injection E as <- <-. cbn [sCache]. apply aset_inv in A. destruct A as (_ & ->). rewrite upd_length. auto. }
    split; [exact L|]. split; [|split; [|exact I3]].
    + intros N. rewrite (I1 N) in E. vm_compute in E. injection E as <- <-. reflexivity.
    + intros N. rewrite (I2 N) in E. injection E as <- <-. auto.
  - discriminate.
  - assert (f = 0) as ->.
    { unfold refresh, aget in E. destruct (nth_error (sCache st) f) eqn:X; [|discriminate]. assert (f < 1) by (rewrite <- IL; apply nth_error_Some; congruence). lia. }
    destruct cs as [|c [|c' cs]].
    + rewrite (I1 eq_refl) in E, EF. vm_compute in E. injection E as <- <-. destruct HF as (l & EL & IN). vm_compute in EL. injection EL as <-.
      repeat (destruct IN as [<-|IN]; [vm_compute in EF; injection EF as <-; cbn; repeat split; try discriminate; auto|]). destruct IN.
    + assert (L: length (sCache st'') = 1).
      { unfold filterSubspace in EF. destruct (refresh _ _ _ _) as [(v, s)|] eqn:E'; [|discriminate].
        injection E as -> ->. destruct (aget (sCache st') 0) as [(p, m)|]; [|discriminate].
        destruct (updateCoverageMaskAndStatistics _ _ _ _ _ _ _ _) as [((a, b), d)|]; [|discriminate]. destruct (filterByInterval _ _ _ _ _ _); [|discriminate].
        destruct (aset _ _ _) eqn:A; [|discriminate]. injection EF as <-. cbn [sCache]. apply aset_inv in A. destruct A as (B & ->). rewrite upd_length.
        unfold refresh in E'. destruct (aget (sCache st) 0) as [(p', m')|]; [|discriminate]. destruct (m' <? sModifications st); [|injection E' as <- <-; auto].
        destruct (aset (sCache st) _ _) eqn:A; [|discriminate]. injection E' as <- <-. cbn [sCache]. apply aset_inv in A. destruct A as (_ & ->). rewrite upd_length. auto. }
      split; [exact L|]. split; [discriminate|]. split; [discriminate|]. intros N. injection N as -> N. rewrite (I2 eq_refl) in E.
      injection E as <- <-. destruct HF.
    + split; [|split; [|split]]; try discriminate.
      { unfold filterSubspace in EF. destruct (refresh _ _ _ _) as [(v, s)|] eqn:E'; [|discriminate].
        injection E as -> ->. destruct (aget (sCache st') 0) as [(p, m)|]; [|discriminate].
        destruct (updateCoverageMaskAndStatistics _ _ _ _ _ _ _ _) as [((a, b), d)|]; [|discriminate]. destruct (filterByInterval _ _ _ _ _ _); [|discriminate].
        destruct (aset _ _ _) eqn:A; [|discriminate]. injection EF as <-. cbn [sCache]. apply aset_inv in A. destruct A as (B & ->). rewrite upd_length.
        unfold refresh in E'. destruct (aget (sCache st) 0) as [(p', m')|]; [|discriminate]. destruct (m' <? sModifications st); [|injection E' as <- <-; auto].
        destruct (aset (sCache st) _ _) eqn:A; [|discriminate]. injection E' as <- <-. cbn [sCache]. apply aset_inv in A. destruct A as (_ & ->). rewrite upd_length. auto. }
      intros N. injection N as -> N. destruct cs; discriminate.
Qed.

Lemma nominal_conditions_lost :
  exists values elements dense sparse numExamples conditions,
    feature numExamples values 0 elements /\
    created false values 0 elements (dense 0) /\ created false values 0 elements (sparse 0) /\
    (exists st, learns false Z.eqb dense numExamples 1 always 1 st conditions) /\
    forall st, ~ learns false Z.eqb sparse numExamples 1 always 1 st conditions.
Proof.
  exists values1, elements1, dense1, sparse1, 6, [(0, Neq 0); (0, Neq 2)].
  split; [isFeature|]. split; [fromDense|]. split; [fromSparse|]. split.
  - eexists. change [(0, Neq 0); (0, Neq 2)] with (([] ++ [(0, eTest (mkEval [0; 1; 2; 4; 5] 0 1 true 5 (Neq 0)))]) ++ [(0, eTest (mkEval [0; 1; 2; 5] 0 1 true 4 (Neq 2)))]).
    eapply learns_filter; [eapply learns_filter; [apply learns_new|vm_compute; reflexivity| |vm_compute; reflexivity]|vm_compute; reflexivity| |vm_compute; reflexivity].
    + split; [|vm_compute; lia]. eexists. split; [vm_compute; reflexivity|]. cbn. tauto.
    + split; [|vm_compute; lia]. eexists. split; [vm_compute; reflexivity|]. cbn. tauto.
  - intros st H. apply sparse1_runs in H. tauto.
Qed.

(** ** Thresholds of ordinal features *)

Definition values2 : nat -> list value32 := fun f => map integer (if f =? 0 then [0; 3; 3; 5]%Z else [1; 0; 0; 1]%Z).
Definition elements2 : nat -> list element := fun f =>
  if f =? 0 then [(1, integer 3); (2, integer 3); (3, integer 5)] else [(0, integer 1); (3, integer 1)].
Definition dense2 : nat -> fvec := fun f =>
  if f =? 0 then NominalVec Ordinal [0; 5]%Z [[0]; [3]] 3 [] else NominalVec Binary [1%Z] [[0; 3]] 0 [].
Definition sparse2 : nat -> fvec := fun f =>
  if f =? 0 then NominalVec Ordinal [3; 5]%Z [[2; 1]; [3]] 0 [] else NominalVec Binary [1%Z] [[0; 3]] 0 [].

Lemma feature2 f : f < 2 -> feature 4 (values2 f) 0 (elements2 f) /\ created true (values2 f) 0 (elements2 f) (dense2 f) /\
  created true (values2 f) 0 (elements2 f) (sparse2 f).
Proof.
  intros Hf. destruct f as [|[|f]]; [| |lia].
  - split; [isFeature|]. split; [fromDense|fromSparse].
  - split; [isFeature|]. split; [fromDense|fromSparse].
Qed.

Lemma fits0 : fitsInt32 0.
Proof. vm_compute. split; [discriminate|reflexivity]. Qed.

Lemma sparse2_original f : f < 2 ->
  represents (truncated (denseColumn (values2 f))) (seq 0 4) (sparse2 f) /\ categorical true (sparse2 f).
Proof.
  intros Hf. destruct (feature2 f Hf) as (F & _ & C).
  destruct (created_spec 4 true (values2 f) 0 (elements2 f) (sparse2 f) true fits0 F C ltac:(auto)) as (A & B & _). auto.
Qed.

Lemma sparse2_runs copies st cs : learns copies Z.eqb sparse2 4 2 always 1 st cs ->
  cs <> [(1, Eq 1); (0, Gr 3)].
Proof.
  intros H N. remember cs as cs' eqn:Ec. induction H as [|f st cs0 vec st' H IH E|st cs0 H IH C|f e st cs0 vec st' st'' H IH E (HF & HN) EF].
  - discriminate.
  - auto.
  - auto.
  - clear IH Ec. assert (X: cs0 = [(1, Eq 1)] /\ f = 0 /\ eTest e = Gr 3).
    { destruct cs0 as [|c [|c' [|c'' cs0]]]; cbn [app] in N; injection N; intros; subst; auto; try discriminate. }
    destruct X as (-> & -> & Ht). clear N.
    set (cols := fun f => truncated (denseColumn (values2 f))) in *.
    assert (HI := run_inv Z.eqb sparse2 cols 4 2 1 always true sparse2_original ltac:(reflexivity) _ _ _ H).
    assert (S := supports sparse2 cols 4 2 true sparse2_original).
    destruct (refresh_spec _ _ _ _ _ _ S _ _ _ _ _ HI E) as (_ & HI' & _ & _ & _ & _ & _ & RV).
    destruct RV as [->|(HL & _)]; [destruct HF|].
    assert (EV: canon (satisfies cols [(1, Eq 1)]) (sparse2 0) = NominalVec Ordinal [5%Z] [[3]] 0 []) by (vm_compute; reflexivity).
    rewrite EV in HL. apply like_unbinned in HL; [|exact I]. subst vec.
    apply (foundIn_iff Z.eqb sparse2 sparse2 cols 4 2 1 always) in HF; [|auto].
    destruct HF as (l & EL & IN).
    assert (EC: coveredBy cols 4 [(1, Eq 1)] = [0; 3]) by (vm_compute; reflexivity).
    rewrite EC in EL. vm_compute in EL. injection EL as <-. destruct IN as [<-|[<-|[]]]; discriminate Ht.
Qed.

Lemma ordinal_thresholds_differ :
  exists values elements dense sparse numExamples numFeatures conditions,
    (forall f, f < numFeatures -> feature numExamples (values f) 0 (elements f) /\
       created true (values f) 0 (elements f) (dense f) /\ created true (values f) 0 (elements f) (sparse f)) /\
    NoDup (map fst conditions) /\
    (exists st, learns false Z.eqb dense numExamples numFeatures always 1 st conditions) /\
    forall copies st, ~ learns copies Z.eqb sparse numExamples numFeatures always 1 st conditions.
Proof.
  exists values2, elements2, dense2, sparse2, 4, 2, [(1, Eq 1); (0, Gr 3)].
  split; [exact feature2|]. split; [cbn; nd|]. split.
  - eexists. change [(1, Eq 1); (0, Gr 3)] with (([] ++ [(1, eTest (mkEval [0; 3] 0 1 false 2 (Eq 1)))]) ++ [(0, eTest (mkEval [3] 1 2 false 1 (Gr 3)))]).
    eapply learns_filter; [eapply learns_filter; [apply learns_new|vm_compute; reflexivity| |vm_compute; reflexivity]|vm_compute; reflexivity| |vm_compute; reflexivity].
    + split; [|vm_compute; lia]. eexists. eexists. split; [reflexivity|]. split; [reflexivity|]. vm_compute. tauto.
    + split; [|vm_compute; lia]. eexists. split; [vm_compute; reflexivity|]. cbn. tauto.
  - intros copies st H. apply sparse2_runs in H. congruence.
Qed.

(** ** Numerical features *)

Definition dense3 : nat -> fvec := fun _ => NumericalVec [(1, (-1)%Z); (0, 0%Z); (2, 5%Z)] 0 false [].
Definition sparse3 : nat -> fvec := fun _ => NumericalVec [(1, (-1)%Z); (2, 5%Z)] 0 true [].

Local Notation new3 := (newSubspace 3 1 (length (filter always (seq 0 3)))).

Lemma dense3_runs copies st cs : learns copies Z.eqb dense3 3 1 always 1 st cs ->
  (cs = [] -> st = new3) /\ forall c, cs = [c] -> c = (0, LeqMean (-1) 5) \/ c = (0, GrMean (-1) 5).
Proof.
  assert (R: forall f vec st', refresh Z.eqb dense3 f new3 = Some (vec, st') -> f = 0 /\ vec = dense3 0 /\ st' = new3).
  { intros [|[|f]] vec st' E; vm_compute in E; [|discriminate|destruct f; discriminate]. injection E as <- <-. auto. }
  induction 1 as [|f st cs vec st' H (I1 & I2) E|st cs H (I1 & I2) C|f e st cs vec st' st'' H (I1 & I2) E (HF & HN) EF].
  - split; [reflexivity|discriminate].
  - split; [|exact I2]. intros N. rewrite (I1 N) in E. apply R in E. tauto.
  - split; [|exact I2]. intros N. rewrite (I1 N). reflexivity.
  - split; [intros N; destruct cs; discriminate|]. intros c N. destruct cs as [|c' cs]; [|destruct cs; discriminate].
    injection N as <-. rewrite (I1 eq_refl) in E. apply R in E. destruct E as (-> & -> & ->). destruct HF as (l & EL & IN).
    vm_compute in EL. injection EL as <-. destruct IN as [<-|[<-|[]]]; auto.
Qed.

Lemma numerical_conditions_differ :
  exists sort values elements dense sparse numExamples c1,
    sortsPairs sort /\ length values = numExamples /\ wellFormed numExamples elements /\ same_values values 0 elements /\
    createNumericalDense Z.eqb sort values = Some (dense 0) /\
    createNumericalSparse Z.eqb sort numExamples 0 elements = Some (sparse 0) /\
    (exists st, learns false Z.eqb sparse numExamples 1 always 1 st [c1]) /\
    forall copies st c2, learns copies Z.eqb dense numExamples 1 always 1 st [c2] ->
      exists i, i < numExamples /\
        satisfies (fun _ => denseColumn values) [c2] i <> satisfies (fun _ => denseColumn values) [c1] i.
Proof.
  exists sortP, (map Some [0; -1; 5]%Z), [(1, Some (-1)%Z); (2, Some 5%Z)], dense3, sparse3, 3, (0, LeqMean (-1) 0).
  split; [exact sortP_sorts|]. split; [reflexivity|]. split; [formed|]. split; [matching|]. split; [vm_compute; reflexivity|].
  split; [vm_compute; reflexivity|]. split.
  - eexists. change [(0, LeqMean (-1) 0)] with ([] ++ [(0, eTest (mkEval [1] 0 1 false 1 (LeqMean (-1) 0)))]).
    eapply learns_filter; [apply learns_new|vm_compute; reflexivity| |vm_compute; reflexivity].
    split; [|vm_compute; lia]. eexists. split; [vm_compute; reflexivity|]. cbn. tauto.
  - intros copies st c2 H. apply dense3_runs in H. destruct H as (_ & H). destruct (H c2 eq_refl) as [->| ->].
    + exists 0. split; [lia|]. vm_compute. discriminate.
    + exists 1. split; [lia|]. vm_compute. discriminate.
Qed.
