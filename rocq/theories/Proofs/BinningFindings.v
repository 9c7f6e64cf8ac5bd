(** Counterexamples for the assignment of values to bins. *)
From Coq Require Import ZArith Arith List Bool Sorted Lia.
From Verif Require Import Lib.Arr Model.Search Model.Filter Model.Binning Spec.Search Spec.Binning Proofs.SearchFindings.
Import ListNotations.
Open Scope nat_scope.

Definition midpoint (a b : Z) : Z := ((a + b) / 2)%Z.

Lemma midpoint_separates : separates midpoint.
Proof.
  intros a b H. unfold midpoint. split.
  - apply Z.div_le_lower_bound; lia.
  - apply Z.div_lt_upper_bound; lia.
Qed.

Definition memory (n : nat) : arrays := mkArrays (repeat 99%Z n) (repeat 99 n) (repeat 99 n).

Ltac mem := unfold allocated; cbn; lia.

Lemma frequency_out_of_bounds : exists mean examples value v sparseValue junk numBins numExamples,
  separates mean /\ numerical_vector examples value v sparseValue true /\ numExamples = length examples /\
  1 < numBins /\ allocated junk numBins (length v) /\
  equalFrequency Z.eqb mean (perBin (length v) numBins) junk numBins numExamples v sparseValue true [] = None.
Proof.
  exists midpoint, [0; 1; 2; 3; 4; 5], (table [-2; -1; 1; 2; 0; 0]%Z), [(0, (-2)%Z); (1, (-1)%Z); (2, 1%Z); (3, 2%Z)], 0%Z, (memory 10), 2, 6.
  split; [exact midpoint_separates|]. split; [nv|]. split; [reflexivity|]. split; [lia|]. split; [mem|reflexivity].
Qed.

Lemma frequency_tolerance : exists (tolerance : Z) mean examples value v sparseValue junk numBins thresholds bins sparseBin p ids t i,
  (0 <= tolerance)%Z /\ separates mean /\ numerical_vector examples value v sparseValue false /\
  1 < numBins /\ allocated junk numBins (length v) /\
  equalFrequency (fun a b => Z.abs (a - b) <=? tolerance)%Z mean (perBin (length v) numBins) junk numBins (length examples)
    v sparseValue false [] = Some (BinnedVec thresholds bins sparseBin []) /\
  nth_error bins p = Some ids /\ In i ids /\ nth_error thresholds p = Some t /\ (t < value i)%Z.
Proof.
  exists 12%Z, midpoint, [0; 1; 2], (table [0; 10; 15]%Z), [(0, 0%Z); (1, 10%Z); (2, 15%Z)], 0%Z, (memory 10), 2.
  eexists. eexists. eexists. exists 0, [0; 1], 7%Z, 1.
  split; [lia|]. split; [exact midpoint_separates|]. split; [nv|]. split; [lia|]. split; [mem|]. split; [vm_compute; reflexivity|].
  split; [reflexivity|]. split; [simpl; auto|]. split; [reflexivity|]. vm_compute. reflexivity.
Qed.

Lemma frequency_missing : exists mean examples value v sparseValue junk numBins missing thresholds bins sparseBin t,
  separates mean /\ numerical_vector examples value v sparseValue true /\
  1 < numBins /\ allocated junk numBins (length v) /\ NoDup (examples ++ missing) /\
  equalFrequency Z.eqb mean (perBin (length v) numBins) junk numBins (length (examples ++ missing)) v sparseValue true missing =
    Some (BinnedVec thresholds bins sparseBin missing) /\
  nth_error thresholds 0 = Some t /\ forall i, In i examples -> (t < value i)%Z.
Proof.
  exists midpoint, [0; 1; 2; 3], (table [1; 2; 3; 4]%Z), [(0, 1%Z); (1, 2%Z); (2, 3%Z); (3, 4%Z)], 0%Z, (memory 10), 3, [4; 5; 6].
  eexists. eexists. eexists. eexists.
  split; [exact midpoint_separates|]. split; [nv|]. split; [lia|]. split; [mem|]. split; [cbn; nd|].
  split; [vm_compute; reflexivity|]. split; [reflexivity|]. intros i H. simpl in H. intuition; subst; reflexivity.
Qed.

Lemma width_threshold : exists examples value v sparseValue junk junkMapping numWidths thresholds bins sparseBin p ids t i,
  numerical_vector examples value v sparseValue false /\
  equalWidth junk junkMapping numWidths v sparseValue false [] = Some (BinnedVec thresholds bins sparseBin []) /\
  nth_error bins p = Some ids /\ In i ids /\ nth_error thresholds p = Some t /\ (t < Z.of_nat numWidths * value i)%Z.
Proof.
  exists [0; 1; 2], (table [0; 6; 10]%Z), [(0, 0%Z); (1, 6%Z); (2, 10%Z)], 0%Z, (memory 10), (repeat 99 10), 5.
  eexists. eexists. eexists. exists 1. eexists. eexists. exists 1.
  split; [nv|]. split; [vm_compute; reflexivity|]. split; [reflexivity|]. split; [left; reflexivity|]. split; [reflexivity|].
  vm_compute. reflexivity.
Qed.

Lemma width_boundary : exists examples value v sparseValue junk junkMapping numWidths thresholds bins sparseBin p q ids t i,
  numerical_vector examples value v sparseValue false /\
  equalWidth junk junkMapping numWidths v sparseValue false [] = Some (BinnedVec thresholds bins sparseBin []) /\
  nth_error bins p = Some ids /\ In i ids /\ q < p /\ nth_error thresholds q = Some t /\ (Z.of_nat numWidths * value i <= t)%Z.
Proof.
  exists [0; 1; 2], (table [0; 2; 10]%Z), [(0, 0%Z); (1, 2%Z); (2, 10%Z)], 0%Z, (memory 10), (repeat 99 10), 5.
  eexists. eexists. eexists. exists 1, 0. eexists. eexists. exists 1.
  split; [nv|]. split; [vm_compute; reflexivity|]. split; [reflexivity|]. split; [left; reflexivity|]. split; [lia|].
  split; [reflexivity|]. vm_compute. discriminate.
Qed.

Lemma width_out_of_bounds : exists examples value v sparseValue junk junkMapping numWidths,
  numerical_vector examples value v sparseValue false /\ In (0, sparseValue) v /\
  allocated junk numWidths (length v) /\ numWidths <= length junkMapping /\
  equalWidth junk junkMapping numWidths v sparseValue false [] = None.
Proof.
  exists [0; 1; 2], (table [0; 5; 10]%Z), [(0, 0%Z); (1, 5%Z); (2, 10%Z)], 0%Z, (memory 10), (repeat 99 10), 2.
  split; [nv|]. split; [left; reflexivity|]. split; [mem|]. split; [cbn; lia|]. reflexivity.
Qed.

Lemma width_dense : exists examples value v,
  numerical_vector examples value v 0%Z false /\ 1 < length v /\ NoDup (map snd v) /\
  forall junk junkMapping numWidths, 0 < numWidths -> equalWidth junk junkMapping numWidths v 0%Z false [] = None.
Proof.
  exists [0; 1; 2], (table [1; 2; 3]%Z), [(0, 1%Z); (1, 2%Z); (2, 3%Z)].
  split; [nv|]. split; [cbn; lia|]. split; [cbn; nd|]. intros junk junkMapping n Hn. unfold equalWidth.
  destruct (Nat.ltb_spec 0 n) as [_|]; [|lia].
  change (minMax _ _ _) with (Some (1%Z, 3%Z)). cbv iota beta.
  assert (E: getBinIndex 0 1 3 n = None); [|rewrite E; reflexivity].
  unfold getBinIndex. change (3 =? 1)%Z with false. cbv iota. destruct (Z.ltb_spec ((0 - 1) * Z.of_nat n / (3 - 1)) 0) as [_|H]; [reflexivity|].
  exfalso. apply Z.le_ngt in H. apply H. apply Z.div_lt_upper_bound; lia.
Qed.

Lemma width_sparse : exists examples value v,
  numerical_vector examples value v 0%Z true /\ 0 < length v < length examples /\
  forall junk junkMapping numWidths, 0 < numWidths -> equalWidth junk junkMapping numWidths v 0%Z true [] = None.
Proof.
  exists [0; 1], (table [0; 0]%Z), [(0, 0%Z)].
  split; [nv|]. split; [cbn; lia|]. intros junk junkMapping n Hn. unfold equalWidth.
  destruct (Nat.ltb_spec 0 n) as [_|]; [|lia]. reflexivity.
Qed.
