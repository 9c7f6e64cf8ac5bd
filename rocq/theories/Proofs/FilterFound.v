(** Proofs about conditions found by a search. *)
From Coq Require Import ZArith Arith List Bool Sorted Permutation Lia.
From Verif Require Import Lib.Arr Model.Search Model.Filter Spec.Search Spec.Filter Proofs.Search Proofs.SearchOrdinal
  Proofs.Filter Proofs.FilterRun.
Import ListNotations.
Open Scope nat_scope.

(** ** Intervals found by a search *)

Section Intervals.
Variable weight : nat -> bool.
Variable total : list nat.
Variable N minCoverage : nat.
Variable n : nat.
Local Notation outer := (outer n).

Lemma consider_outer e l : outer e -> Forall outer l -> Forall outer (consider minCoverage e l).
Proof. intros He Hl. unfold consider. destruct (_ <=? _); auto. apply Forall_app. auto. Qed.

Lemma evaluate_outer s a b m t1 t2 l : a <= b <= n -> (a = 0 \/ b = n) -> Forall outer l ->
  Forall outer (evaluate total N minCoverage s a b m t1 t2 l).
Proof. intros H1 H2 H3. unfold evaluate. apply consider_outer; [split; auto|]. apply consider_outer; auto. split; auto. Qed.

Lemma accumulated_outer s a b m t1 t2 l l' : a <= b <= n -> (a = 0 \/ b = n) -> Forall outer l ->
  evaluateAccumulated total N minCoverage s a b m t1 t2 l = Some l' -> Forall outer l'.
Proof.
  intros H1 H2 H3 E. unfold evaluateAccumulated in E.
  repeat (match type of E with context [if ?b then _ else _] => destruct b | context [ssAccumulated ?s] => destruct (ssAccumulated s) end;
          try discriminate); injection E as <-; auto; repeat (apply Forall_app; split; auto); constructor; auto; split; auto.
Qed.

Lemma consider_bounds e l : eStart e <= eEnd e <= n -> Forall (fun e => eStart e <= eEnd e <= n) l ->
  Forall (fun e => eStart e <= eEnd e <= n) (consider minCoverage e l).
Proof. intros He Hl. unfold consider. destruct (_ <=? _); auto. apply Forall_app. auto. Qed.

Lemma nominal_bounds values bins majority l : length values = n ->
  searchNominal weight total N minCoverage values bins majority = Some l -> Forall (fun e => eStart e <= eEnd e <= n) l.
Proof.
  intros L E. unfold searchNominal in E. rewrite L in E.
  assert (LP: forall cnt i st, i + cnt <= n -> Forall (fun e => eStart e <= eEnd e <= n) (snd st) ->
    forall r, forN cnt i (fun i '(s, numMinority, l) =>
      let* ids := aget bins i in
      let '(s, numCovered) := addAllToSubset weight ids s in
      let* v := aget values i in
      let l := evaluate total N minCoverage s i (i + 1) numCovered (Eq v) (Neq v) l in
      Some (resetSubset s, numMinority + numCovered, l)) st = Some r ->
    Forall (fun e => eStart e <= eEnd e <= n) (snd r)).
  { induction cnt as [|cnt IH]; intros i st B H r Er; cbn [forN] in Er; [injection Er as <-; auto|].
    destruct st as ((s, m), l0). destruct (aget bins i) as [ids|]; [|discriminate].
    destruct (addAllToSubset weight ids s) as (s', c). destruct (aget values i) as [v|]; [|discriminate].
    eapply IH in Er; [exact Er|lia|]. cbn [snd] in *. unfold evaluate. apply consider_bounds; [cbn; lia|].
    apply consider_bounds; [cbn; lia|auto]. }
  destruct (forN _ _ _ _) as [((s, m), l0)|] eqn:EL; [|discriminate]. apply LP in EL; [|lia|cbn; auto]. cbn [snd] in EL.
  unfold evaluateAccumulated in E.
  repeat (match type of E with context [if ?b then _ else _] => destruct b | context [ssAccumulated ?s] => destruct (ssAccumulated s) end;
          try discriminate); injection E as <-; auto; repeat (apply Forall_app; split; auto); constructor; auto; cbn; lia.
Qed.

Lemma up_outer values bins majority : forall cnt i previous m s l r, i + cnt <= n -> Forall outer l ->
  ordinalUp weight total N minCoverage values bins majority cnt i previous m s l = Some r ->
  let '(i', _, _, _, l') := r in i' <= n /\ Forall outer l'.
Proof.
  induction cnt as [|cnt IH]; intros i previous m s l r B H E; cbn [ordinalUp] in E.
  - injection E as <-. split; [lia|auto].
  - destruct (aget values i); [|discriminate]. destruct (_ <=? _)%Z; [injection E as <-; split; [lia|auto]|].
    destruct (aget bins i) as [ids|]; [|discriminate]. destruct (addAllToSubset weight ids s).
    eapply IH in E; [exact E|lia|]. apply evaluate_outer; auto; lia.
Qed.

Lemma down_outer values bins first : length values = n -> forall cnt m s l r, first + cnt < n -> Forall outer l ->
  ordinalDown weight total N minCoverage values bins first cnt m s l = Some r -> let '(_, _, l') := r in Forall outer l'.
Proof.
  intros L. induction cnt as [|cnt IH]; intros m s l r B H E; cbn [ordinalDown] in E.
  - injection E as <-. auto.
  - cbv zeta in E. destruct (aget values _); [|discriminate]. destruct (aget bins _) as [ids|]; [|discriminate].
    destruct (addAllToSubset weight ids s). eapply IH in E; [exact E|lia|]. apply evaluate_outer; auto; lia.
Qed.

Lemma ordinal_outer values bins majority l : length values = n ->
  searchOrdinal weight total N minCoverage values bins majority = Some l -> Forall outer l.
Proof.
  intros L E. unfold searchOrdinal in E. rewrite L in E.
  destruct (aget values 0) as [previous|] eqn:E0; [|discriminate].
  assert (n <> 0) by (intros Z; rewrite Z in L; destruct values; [discriminate E0|discriminate L]).
  destruct (if (previous <? majority)%Z then _ else _) as [(s, m)|]; [|discriminate].
  destruct (if 0 <? m then _ else _) as [((((first, lastLess), numLess), s'), l')|] eqn:EU; [|discriminate].
  assert (S1: first <= n /\ Forall outer l').
  { destruct (0 <? m); [|injection EU as <- <- <- <- <-; split; [lia|auto]].
    destruct (ordinalUp _ _ _ _ _ _ _ _ _ _ _ _ _) as [((((i, p), c), s''), l'')|] eqn:EU'; [|discriminate].
    injection EU as <- <- <- <- <-. apply up_outer in EU'; auto; lia. }
  destruct S1 as (B & F).
  destruct (aget values (n - 1)) as [last|]; [|discriminate].
  destruct (if (majority <? last)%Z then _ else _) as [(s2, m2)|]; [|discriminate].
  destruct (if 0 <? m2 then _ else _) as [((m3, s3), l3)|] eqn:ED; [|discriminate].
  assert (F3: Forall outer l3).
  { destruct (0 <? m2); [|injection ED as <- <- <-; auto].
    destruct (le_lt_dec n first) as [G|G].
    - replace (n - 1 - first) with 0 in ED by lia. cbn [ordinalDown] in ED. injection ED as <- <- <-. auto.
    - apply down_outer in ED; auto. lia. }
  destruct (_ && _).
  - apply accumulated_outer in E; auto; try lia. apply evaluate_outer; auto; lia.
  - injection E as <-. apply evaluate_outer; auto; lia.
Qed.

Variable isEqual : Z -> Z -> bool.

Lemma first_bound (v : list (nat * Z)) sparseValue : forall cnt i i' r, i + cnt <= n ->
  numericalFirst weight v sparseValue cnt i = Some (i', r) -> i' <= n /\ (r <> None -> i' < n).
Proof.
  induction cnt as [|cnt IH]; intros i i' r B E; cbn [numericalFirst] in E.
  - injection E as <- <-. split; [lia|congruence].
  - destruct (aget v i) as [(index, current)|]; [|discriminate].
    destruct (negb _); [injection E as <- <-; split; [lia|congruence]|].
    destruct (weight index); [injection E as <- <-; split; lia|]. eapply IH; [|eauto]. lia.
Qed.

Lemma numerical_up_outer v sparseValue : forall cnt i previous m s l r, i + cnt <= n -> Forall outer l ->
  numericalUp weight total N minCoverage isEqual v sparseValue cnt i previous m s l = Some r ->
  let '(i', _, _, _, l') := r in i' <= n /\ Forall outer l'.
Proof.
  induction cnt as [|cnt IH]; intros i previous m s l r B H E; cbn [numericalUp] in E.
  - injection E as <-. split; [lia|auto].
  - destruct (aget v i) as [(index, current)|]; [|discriminate]. destruct (negb _); [injection E as <-; split; [lia|auto]|].
    destruct (weight index).
    + eapply IH in E; [exact E|lia|]. destruct (isEqual previous current); auto. apply evaluate_outer; auto; lia.
    + eapply IH in E; [exact E|lia|auto].
Qed.

Lemma numerical_down_outer v first : length v = n -> forall cnt previous m s l r, first + cnt < n -> Forall outer l ->
  numericalDown weight total N minCoverage isEqual v first cnt previous m s l = Some r ->
  let '(_, _, _, l') := r in Forall outer l'.
Proof.
  intros L. induction cnt as [|cnt IH]; intros previous m s l r B H E; cbn [numericalDown] in E.
  - injection E as <-. auto.
  - cbv zeta in E. destruct (aget v _) as [(index, current)|]; [|discriminate].
    destruct (weight index); (eapply IH in E; [exact E|lia|auto]).
    destruct (isEqual previous current); auto. apply evaluate_outer; auto; lia.
Qed.

Lemma last_bound (v : list (nat * Z)) first : forall cnt i index z, first + cnt <= n ->
  numericalLast weight v first cnt = Some (Some (i, index, z)) -> i < n.
Proof.
  induction cnt as [|cnt IH]; intros i index z B E; cbn [numericalLast] in E; [discriminate|].
  destruct (aget v _) as [(index', current)|]; [|discriminate].
  destruct (weight index'); [injection E as <- <- <-; lia|]. eapply IH; [|eauto]. lia.
Qed.

Lemma numerical_outer v sparseValue sparse l : length v = n ->
  searchNumerical weight total N minCoverage isEqual v sparseValue sparse = Some l -> Forall outer l.
Proof.
  intros L E. unfold searchNumerical in E. rewrite L in E.
  destruct (numericalFirst _ _ _ _ _) as [(i, found)|] eqn:EF; [|discriminate].
  apply first_bound in EF; [|lia]. destruct EF as (B1 & B2).
  assert (S1: forall r, match found with
    | Some (index, previous) =>
        let* (i, previous, numCovered, s, l) :=
          numericalUp weight total N minCoverage isEqual v sparseValue (n - (i + 1)) (i + 1) previous 1
            (addToSubset index emptySubset) [] in
        Some (i, previous, numCovered, resetSubset s, l)
    | None => Some (i, sparseValue, 0, emptySubset, [])
    end = Some r -> let '(first, _, _, _, l') := r in first <= n /\ Forall outer l').
  { intros r Er. destruct found as [(index, previous)|].
    - destruct (numericalUp _ _ _ _ _ _ _ _ _ _ _ _ _) as [((((i', p), c), s'), l')|] eqn:EU; [|discriminate].
      injection Er as <-. apply numerical_up_outer in EU; auto. assert (i < n) by (apply B2; discriminate). lia.
    - injection Er as <-. auto. }
  destruct (match found with Some _ => _ | None => _ end) as [((((first, lastLess), numLess), s), l1)|]; [|discriminate].
  specialize (S1 _ eq_refl). destruct S1 as (B & F).
  destruct (numericalLast _ _ _ _) as [found'|] eqn:EL; [|discriminate].
  assert (S2: forall r, match found' with
    | Some (i, index, previous) =>
        let s := addToSubset index s in
        if 0 <? i then numericalDown weight total N minCoverage isEqual v first (i - 1 - first) previous 1 s l1
        else Some (previous, 1, s, l1)
    | None => Some (lastLess, 0, s, l1)
    end = Some r -> let '(_, _, _, l') := r in Forall outer l').
  { intros r Er. destruct found' as [((i', index), previous)|]; [|injection Er as <-; auto].
    apply last_bound in EL; [|lia]. cbv zeta in Er. destruct (Nat.ltb_spec 0 i'); [|injection Er as <-; auto].
    destruct (le_lt_dec (i' - 1) first) as [G|G].
    - replace (i' - 1 - first) with 0 in Er by lia. cbn [numericalDown] in Er. injection Er as <-. auto.
    - apply numerical_down_outer in Er; auto. lia. }
  destruct (match found' with Some _ => _ | None => _ end) as [(((previous, m), s'), l2)|]; [|discriminate].
  specialize (S2 _ eq_refl). cbn beta iota in S2.
  assert (F3: Forall outer (if sparse then evaluate total N minCoverage s' first n m (GrMean sparseValue previous)
    (LeqMean sparseValue previous) l2 else l2)) by (destruct sparse; auto; apply evaluate_outer; auto; lia).
  destruct (_ && _).
  - apply accumulated_outer in E; auto; lia.
  - injection E as <-. auto.
Qed.

Lemma at_outer s a b m t g l l' : a <= b <= n -> (a = 0 \/ b = n) -> Forall outer l ->
  evaluateAt total N minCoverage s a b m t g l = Some l' -> Forall outer l'.
Proof.
  intros H1 H2 H3 E. unfold evaluateAt in E. destruct (_ || _); [|injection E as <-; auto].
  destruct t; [|discriminate]. destruct g; injection E as <-; apply evaluate_outer; auto.
Qed.

Lemma binned_up_outer thresholds bins : forall cnt i m s l r, i + cnt <= n -> Forall outer l ->
  binnedUp weight total N minCoverage thresholds bins cnt i m s l = Some r -> let '(_, _, l') := r in Forall outer l'.
Proof.
  induction cnt as [|cnt IH]; intros i m s l r B H E; cbn [binnedUp] in E.
  - injection E as <-. auto.
  - destruct (evaluateAt _ _ _ _ _ _ _ _ _ _) as [l'|] eqn:EA; [|discriminate]. apply at_outer in EA; auto; try lia.
    destruct (aget bins i) as [ids|]; [|discriminate]. destruct (addAllToSubset weight ids s).
    eapply IH in E; [exact E|lia|auto].
Qed.

Lemma binned_down_outer thresholds bins sparseBin : length bins = n -> forall cnt m s l r, sparseBin + cnt < n ->
  Forall outer l -> binnedDown weight total N minCoverage thresholds bins sparseBin cnt m s l = Some r ->
  let '(_, _, l') := r in Forall outer l'.
Proof.
  intros L. induction cnt as [|cnt IH]; intros m s l r B H E; cbn [binnedDown] in E.
  - injection E as <-. auto.
  - cbv zeta in E. destruct (evaluateAt _ _ _ _ _ _ _ _ _ _) as [l'|] eqn:EA; [|discriminate].
    apply at_outer in EA; auto; try lia.
    destruct (aget bins _) as [ids|]; [|discriminate]. destruct (addAllToSubset weight ids s).
    eapply IH in E; [exact E|lia|auto].
Qed.

Lemma binned_outer thresholds bins sparseBin l : length bins = n -> sparseBin < n ->
  searchBinned weight total N minCoverage thresholds bins sparseBin = Some l -> Forall outer l.
Proof.
  intros L SB E. unfold searchBinned in E. rewrite L in E.
  destruct (if 0 <? sparseBin then _ else _) as [(s, m)|]; [|discriminate].
  destruct (if 0 <? m then _ else _) as [((numLess, s1), l1)|] eqn:EU; [|discriminate].
  assert (F1: Forall outer l1).
  { destruct (0 <? m); [|injection EU as <- <- <-; auto].
    destruct (binnedUp _ _ _ _ _ _ _ _ _ _ _) as [((c, s'), l')|] eqn:EB; [|discriminate]. injection EU as <- <- <-.
    apply binned_up_outer in EB; auto. lia. }
  destruct (if sparseBin <? n - 1 then _ else _) as [(s2, m2)|] eqn:E2; [|discriminate].
  destruct (if 0 <? m2 then _ else _) as [((m3, s3), l3)|] eqn:ED; [|discriminate].
  assert (F3: Forall outer l3).
  { destruct (0 <? m2); [|injection ED as <- <- <-; auto].
    destruct (le_lt_dec (n - 2) sparseBin) as [G|G].
    - replace (n - 2 - sparseBin) with 0 in ED by lia. cbn [binnedDown] in ED. injection ED as <- <- <-. auto.
    - apply binned_down_outer in ED; auto. lia. }
  destruct (evaluateSparseBin _ _ _ _ _ _ _ _) as [l4|] eqn:ES; [|discriminate].
  assert (F4: Forall outer l4).
  { unfold evaluateSparseBin in ES. destruct (_ || _); [|injection ES as <-; auto].
    destruct (aget thresholds sparseBin); [|discriminate]. injection ES as <-.
    apply consider_outer; [split; cbn; lia|]. apply consider_outer; [split; cbn; lia|auto]. }
  destruct (_ && _); [|injection E as <-; auto]. destruct (_ || _); [|injection E as <-; auto].
  destruct (aget thresholds (sparseBin - 1)); [|discriminate]. apply accumulated_outer in E; auto; lia.
Qed.

End Intervals.

(** ** Runs with conditions that are found by a search *)

Section Found.
Variable isEqual : Z -> Z -> bool.
Variable original : nat -> fvec.
Variable cols : nat -> column.
Variable numExamples numFeatures minCoverage : nat.
Variable weight : nat -> bool.
Variable allWeighted : bool.

Hypothesis HO : forall f, f < numFeatures ->
  represents (cols f) (seq 0 numExamples) (original f) /\ categorical allWeighted (original f).
Hypothesis HW : allWeighted = true -> forall i, i < numExamples -> weight i = true.

Lemma HS : forall f, f < numFeatures ->
  represents (cols f) (seq 0 numExamples) (original f) /\ supported_by (cols f) (seq 0 numExamples) (original f).
Proof.
  intros f Hf. destruct (HO f Hf) as (R & C). split; auto. destruct (original f); cbn in *; auto; try tauto. destruct k; cbn in *; auto.
Qed.

Lemma found_exact f e st cs vec st0 : Inv original cols numExamples numFeatures weight st cs ->
  refresh isEqual original f st0 = Some (vec, st) -> f < numFeatures ->
  (vec = EqualVec \/ same_but_sparse vec (canon (satisfies cols cs) (original f))) ->
  represents (cols f) (coveredBy cols numExamples cs) vec ->
  found_condition isEqual numExamples weight minCoverage st cs f vec e ->
  exact_condition cols numExamples weight st cs f vec e.
Proof.
  intros HI HR Hf HV R HF. pose proof HI as (H1 & H2 & H3 & H4 & H5 & H6 & H7 & H8 & H9).
  destruct (HO f Hf) as (RO & CO).
  destruct HV as [->|HV]; [destruct HF|].
  destruct (original f) as [|v sv sp m|k vs bs mj m|t b s' m] eqn:EO; [apply like_equal in HV; subst; destruct HF|destruct CO| |destruct CO].
  assert (M: m = [] /\ (k = Ordinal -> allWeighted = true)) by (destruct k; cbn in CO; intuition discriminate).
  destruct M as (-> & MW). clear CO.
  (* all examples have a value *)
  assert (VA: forall i, i < numExamples -> hasValue (cols f) i = true).
  { destruct RO as (_ & RM & _). intros i Hi. unfold hasValue. destruct (cols f i) eqn:Ei; auto.
    exfalso. apply (RM i). split; auto. apply in_seq. lia. }
  assert (VC: valued (cols f) (coveredBy cols numExamples cs) = coveredBy cols numExamples cs).
  { apply filter_app_ext. intros i Hi. apply VA. apply filter_In in Hi. destruct Hi as (Hi & _). apply in_seq in Hi. lia. }
  assert (TO: filter (fun i => weight i && match aget (sStatistics st) i with Some x => (x =? 1)%Z | None => false end)
                (seq 0 numExamples) = filter weight (coveredBy cols numExamples cs)).
  { unfold coveredBy. clear - H7.
    assert (forall i, In i (seq 0 numExamples) -> i < numExamples) by (intros i Hi; apply in_seq in Hi; lia).
    induction (seq 0 numExamples) as [|i l IH]; [reflexivity|]. cbn [filter]. unfold aget at 1.
    rewrite H7 by (apply H; left; auto). rewrite IH by (intros; apply H; right; auto).
    destruct (satisfies cols cs i); cbn [filter]; [|rewrite andb_false_r; reflexivity].
    rewrite andb_true_r. reflexivity. }
  set (ex := coveredBy cols numExamples cs) in *.
  cbn [canon] in HV. destruct (keepBins (satisfies cols cs) vs bs) as (vs', bs'). apply like_unbinned in HV; [|exact I]. subst vec.
  unfold found_condition in HF. rewrite TO, H8 in HF. cbn [missingOf filter existsb negb] in HF.
  rewrite (filter_app_ext (fun _ => true) (filter weight ex)) in HF by reflexivity.
  cbn [represents] in R. destruct R as (_ & _ & R). rewrite VC in R.
  unfold exact_condition. fold ex. rewrite VC. cbn [binsOf].
  assert (FIN: exact ex weight (valueOf (cols f)) bs' e -> valid_interval (NominalVec k vs' bs' mj (filter (satisfies cols cs) [])) e ->
    valid_interval (NominalVec k vs' bs' mj (filter (satisfies cols cs) [])) e /\
    exact_interval ex (valueOf (cols f)) bs' e /\ eCovered e = support ex weight (valueOf (cols f)) (eTest e)).
  { intros (X1 & X2) X3. split; [auto|split; [auto|]]. apply scored_support; auto.
    apply NoDup_filter, seq_NoDup. }
  destruct k.
  - destruct HF as (l & EL & IN). destruct R as (R & RN). destruct vs' as [|v0 vs'].
    { exfalso. unfold searchNominal in EL. cbn [length forN] in EL. unfold evaluateAccumulated in EL. cbn [emptySubset ssAccumulated] in EL.
      repeat (match type of EL with context [if ?b then _ else _] => destruct b end; try discriminate).
      injection EL as <-. destruct IN. }
    destruct (nominal_exact ex weight (valueOf (cols f)) minCoverage (v0 :: vs') bs' mj R ltac:(discriminate))
      as (l' & EL' & X & _). rewrite EL in EL'. injection EL' as <-. apply FIN; auto.
    split; [|exact I]. cbn [binsOf]. assert (LL: length (v0 :: vs') = length bs') by apply R.
    eapply nominal_bounds in EL; eauto. rewrite Forall_forall in EL. apply EL in IN. exact IN.
  - destruct HF as (l & EL & IN). destruct R as (R & RN). destruct vs' as [|v0 vs']; [discriminate EL|].
    assert (LL: length (v0 :: vs') = length bs') by apply R.
    assert (OM: outermost weight (v0 :: vs') bs' mj).
    { assert (AW: forall p ids, nth_error bs' p = Some ids -> exists i, In i ids /\ weight i = true).
      { intros p ids E. rewrite Forall_forall in RN. assert (X := RN ids (nth_error_In _ _ E)).
        destruct ids as [|i ids]; [congruence|]. exists i. split; [left; auto|]. apply HW; auto.
        destruct R as (((_ & _ & IC) & _) & _). assert (Y: In i ex).
        { apply IC, in_concat. exists (i :: ids). split; [eapply nth_error_In; eauto|left; auto]. }
        apply filter_In in Y. destruct Y as (Y & _). apply in_seq in Y. lia. }
      split; intros v ids _ _ E; eapply AW; eauto. }
    destruct (ordinal_exact ex weight (valueOf (cols f)) minCoverage (v0 :: vs') bs' mj R ltac:(discriminate) OM)
      as (l' & EL' & X & _). rewrite EL in EL'. injection EL' as <-. apply FIN; auto.
    apply (ordinal_outer weight _ _ _ (length bs')) in EL; auto. rewrite Forall_forall in EL. apply EL in IN. exact IN.
  - destruct HF as (v & ids & -> & -> & IN). destruct R as (R & RN).
    destruct (binary_exact ex weight (valueOf (cols f)) minCoverage v mj ids R) as (X & _). apply FIN; auto.
    unfold searchBinary in IN. destruct (addAllToSubset weight ids emptySubset) as (s, c).
    assert (F: Forall (Spec.Filter.outer 1) (evaluate (filter weight ex) (length (filter weight ex)) minCoverage s 0 1 c (Eq v) (Eq mj) []))
      by (apply evaluate_outer; auto; lia).
    rewrite Forall_forall in F. apply F in IN. exact IN.
Qed.

Theorem runs_found st cs : reaches isEqual original numExamples numFeatures weight
  (found_condition isEqual numExamples weight minCoverage) st cs -> Inv original cols numExamples numFeatures weight st cs.
Proof.
  intros H. eapply runs_by; [exact HS|exact H|]. intros. eapply found_exact; eauto.
Qed.

End Found.

(** ** Statements *)

Lemma inv_correct original cols numExamples numFeatures weight st cs :
  Inv original cols numExamples numFeatures weight st cs -> correct_state cols numExamples weight st cs.
Proof.
  intros HI. split; [intros i Hi; eapply inv_covered; eauto|].
  destruct HI as (H1 & H2 & H3 & H4 & H5 & H6 & H7 & H8 & H9). split; auto.
Qed.

Theorem mask_equal isEqual col examples p vec : vec <> EqualVec -> unbinned vec \/ supported_by col examples vec ->
  represents col examples vec ->
  filterByMask isEqual p vec = EqualVec ->
  exists a b, (a = b \/ isEqual a b = true) /\
    forall i, In i (valued col examples) -> p i = true -> (a <= valueOf col i <= b)%Z.
Proof.
  intros VN U R E. destruct vec as [|v sv sp m|k vs bs mj m|t bs s m]; [congruence| | |].
  - cbn [filterByMask] in E. destruct R as (_ & _ & R). destruct R as (R1 & R2 & R3 & R4 & R5 & R6).
    set (v' := filter (fun x => p (fst x)) v) in *.
    assert (IV: forall i z, In (i, z) v -> p i = true -> In (i, z) v') by (intros; apply filter_In; auto).
    assert (SV: StronglySorted Z.le (map snd v')) by (apply ss_filter_snd; auto).
    assert (DEC: forall i, In i (map fst v) -> In (i, valueOf col i) v).
    { intros i Hi. apply in_map_iff in Hi. destruct Hi as ((j, z) & <- & Hj). cbn [fst]. rewrite (R5 j z) by auto. auto. }
    destruct v' as [|(i0, first) v''] eqn:EV.
    + exists sv, sv. split; auto. intros i Hi Hp. destruct (in_dec Nat.eq_dec i (map fst v)) as [Hv|Hv].
      * destruct (IV i (valueOf col i) (DEC i Hv) Hp).
      * destruct (R6 i Hi Hv) as (_ & ->). lia.
    + destruct (sp || negb (isEqual first _)) eqn:EB; [discriminate|]. apply orb_false_elim in EB. destruct EB as (-> & EB).
      apply negb_false_iff in EB. eexists. eexists. split; [right; exact EB|]. intros i Hi Hp.
      assert (Hv: In i (map fst v)).
      { destruct (in_dec Nat.eq_dec i (map fst v)); auto. destruct (R6 i Hi n) as (? & _). discriminate. }
      assert (HI := IV i (valueOf col i) (DEC i Hv) Hp). split.
      * cbn [map snd] in SV. inversion SV as [|? ? _ F]; subst. rewrite Forall_forall in F.
        destruct HI as [HI|HI]; [injection HI as -> ->; lia|]. apply F. apply in_map_iff. exists (i, valueOf col i). auto.
      * revert HI SV. generalize ((i0, first) :: v''). intros l HI SV. clear - HI SV.
        induction l as [|x l IH]; [destruct HI|]. cbn [map] in SV. inversion SV as [|? ? S1 F]; subst.
        destruct l as [|y l]; [cbn; destruct HI as [->|[]]; cbn; lia|].
        change (last (x :: y :: l) (0, 0%Z)) with (last (y :: l) (0, 0%Z)).
        destruct HI as [->|HI]; [|apply IH; auto]. cbn [snd] in F. rewrite Forall_forall in F.
        apply F. apply in_map. destruct (exists_last (l := y :: l) ltac:(discriminate)) as (l' & z & ->).
        rewrite last_last. apply in_or_app. right. left. auto.
  - cbn [filterByMask] in E.
    assert (N: nominal_vector (valued col examples) (valueOf col) vs bs mj).
    { destruct R as (_ & _ & R). destruct k; unfold ordinal_vector in R; tauto. }
    assert (K := keepBins_pairs p vs bs ltac:(apply N)). destruct (keepBins p vs bs) as (vs', bs').
    destruct K as (_ & _ & K & _). destruct bs' as [|b bs']; [|discriminate]. cbn [concat] in K.
    exists mj, mj. split; auto. intros i Hi Hp. destruct N as (_ & _ & _ & _ & N). rewrite N; auto; [lia|].
    intros Hc. assert (F: In i (filter p (concat bs))) by (apply filter_In; auto). rewrite <- K in F. destruct F.
  - destruct U as [[]|(_ & HI)]. cbn [filterByMask] in E. destruct R as (_ & _ & _ & _ & L & _).
    assert (KS := keepBinned_spec p t (length bs) ltac:(lia) bs 0 [] [] s ltac:(lia)). cbn [skipn] in KS.
    assert (K := keepBins_pairs p (t ++ [0%Z]) bs ltac:(rewrite app_length; cbn; lia)).
    destruct (keepBins p (t ++ [0%Z]) bs) as (us, bs1). destruct KS as (Y & s' & EQ & _). rewrite EQ in E. cbn [app] in E.
    destruct bs1 as [|b1 bs1]; [|discriminate]. destruct K as (_ & _ & K & _). cbn [concat] in K.
    exists 0%Z, 0%Z. split; [auto|]. intros i Hi Hp. assert (F: In i (filter p (concat bs))) by (apply filter_In; auto).
    rewrite <- K in F. destruct F.
Qed.

Lemma exact_runs isEqual original cols numExamples numFeatures weight st conditions :
  (forall f, f < numFeatures -> represents (cols f) (seq 0 numExamples) (original f) /\ supported_by (cols f) (seq 0 numExamples) (original f)) ->
  reaches isEqual original numExamples numFeatures weight (exact_condition cols numExamples weight) st conditions ->
  correct_state cols numExamples weight st conditions.
Proof. intros HO H. eapply inv_correct. eapply runs; eauto. Qed.

Lemma categorical_runs isEqual original cols numExamples numFeatures minCoverage weight allWeighted st conditions :
  (forall f, f < numFeatures ->
     represents (cols f) (seq 0 numExamples) (original f) /\ categorical allWeighted (original f)) ->
  (allWeighted = true -> forall i, i < numExamples -> weight i = true) ->
  reaches isEqual original numExamples numFeatures weight (found_condition isEqual numExamples weight minCoverage)
    st conditions ->
  correct_state cols numExamples weight st conditions.
Proof. intros HO HW H. eapply inv_correct. eapply runs_found; eauto. Qed.

Lemma refreshed isEqual original cols numExamples numFeatures weight st conditions f vec st' :
  (forall f, f < numFeatures -> represents (cols f) (seq 0 numExamples) (original f) /\ supported_by (cols f) (seq 0 numExamples) (original f)) ->
  reaches isEqual original numExamples numFeatures weight (exact_condition cols numExamples weight) st conditions ->
  refresh isEqual original f st = Some (vec, st') ->
  represents (cols f) (coveredBy cols numExamples conditions) vec.
Proof. intros HO H E. eapply refresh_represents; eauto. eapply runs; eauto. Qed.

Lemma like_sym v w : same_but_sparse v w -> same_but_sparse w v.
Proof. destruct v, w; cbn; try congruence; try tauto. intros (-> & -> & ->). auto. Qed.

Lemma same_positions isEqual original cols numExamples numFeatures weight st1 conditions1 st2 conditions2 f vec1 st1' vec2 st2' :
  (forall f, f < numFeatures -> represents (cols f) (seq 0 numExamples) (original f) /\ supported_by (cols f) (seq 0 numExamples) (original f)) ->
  reaches isEqual original numExamples numFeatures weight (exact_condition cols numExamples weight) st1 conditions1 ->
  reaches isEqual original numExamples numFeatures weight (exact_condition cols numExamples weight) st2 conditions2 ->
  coveredBy cols numExamples conditions1 = coveredBy cols numExamples conditions2 ->
  refresh isEqual original f st1 = Some (vec1, st1') -> refresh isEqual original f st2 = Some (vec2, st2') ->
  vec1 = EqualVec \/ vec2 = EqualVec \/ same_but_sparse vec1 vec2.
Proof.
  intros HO H1 H2 HC E1 E2.
  assert (I1 := runs _ _ _ _ _ _ HO _ _ H1). assert (I2 := runs _ _ _ _ _ _ HO _ _ H2).
  destruct (refresh_spec _ _ _ _ _ _ HO _ _ _ _ _ I1 E1) as (Hf & _ & _ & _ & _ & _ & _ & [->|(L1 & _)]); [auto|].
  destruct (refresh_spec _ _ _ _ _ _ HO _ _ _ _ _ I2 E2) as (_ & _ & _ & _ & _ & _ & _ & [->|(L2 & _)]); [auto|].
  right. right. eapply like_trans; [exact L1|]. apply like_sym. eapply like_trans; [exact L2|].
  rewrite (canon_ext (satisfies cols conditions2) (satisfies cols conditions1)); [apply like_refl|]. intros i Hi.
  assert (B := ids_bound _ _ _ _ HO f i Hf Hi).
  apply eq_true_iff_eq. assert (IN: In i (coveredBy cols numExamples conditions1) <-> In i (coveredBy cols numExamples conditions2))
    by (rewrite HC; tauto).
  unfold coveredBy in IN. rewrite !filter_In, in_seq in IN. assert (0 <= i < 0 + numExamples) by lia. tauto.
Qed.

Lemma reset_new isEqual original cols numExamples numFeatures weight st conditions :
  (forall f, f < numFeatures -> represents (cols f) (seq 0 numExamples) (original f) /\ supported_by (cols f) (seq 0 numExamples) (original f)) ->
  reaches isEqual original numExamples numFeatures weight (exact_condition cols numExamples weight) st conditions ->
  let numWeighted := length (filter weight (seq 0 numExamples)) in
  let new := newSubspace numExamples numFeatures numWeighted in
  let reset := resetSubspace numWeighted st in
  sMask reset = sMask new /\ sIndicator reset = sIndicator new /\ sModifications reset = sModifications new /\
  sCovered reset = sCovered new /\ sCache reset = sCache new.
Proof.
  intros HO H. assert (HI := runs _ _ _ _ _ _ HO _ _ H). destruct HI as (H1 & _ & H3 & _).
  cbn. rewrite H1, H3. auto.
Qed.

Lemma ordinal_outer' weight total N minCoverage values bins majority l e :
  searchOrdinal weight total N minCoverage values bins majority = Some l -> In e l -> outer (length values) e.
Proof. intros E H. eapply ordinal_outer in E; eauto. rewrite Forall_forall in E. auto. Qed.

Lemma numerical_outer' weight total N minCoverage isEqual v sparseValue sparse l e :
  searchNumerical weight total N minCoverage isEqual v sparseValue sparse = Some l -> In e l -> outer (length v) e.
Proof. intros E H. eapply numerical_outer in E; eauto. rewrite Forall_forall in E. auto. Qed.

Lemma binned_outer' weight total N minCoverage thresholds bins sparseBin l e : sparseBin < length bins ->
  searchBinned weight total N minCoverage thresholds bins sparseBin = Some l -> In e l -> outer (length bins) e.
Proof. intros B E H. eapply binned_outer in E; eauto. rewrite Forall_forall in E. auto. Qed.

(** ** Conditions can always be added *)

Lemma markAll_succeeds ids indicator d : forall mask stats, length mask = length stats ->
  (forall i, In i ids -> i < length mask) ->
  exists mask' stats', markAll ids indicator d (mask, stats) = Some (mask', stats') /\ length mask' = length mask /\
    length stats' = length stats.
Proof.
  unfold markAll. induction ids as [|j ids IH]; intros mask stats L H; cbn [forL]; [eauto|].
  rewrite aset_Some by (apply H; left; auto).
  destruct (aget_Some stats j) as (x & Ex); [rewrite <- L; apply H; left; auto|]. rewrite Ex.
  rewrite aset_Some by (rewrite <- L; apply H; left; auto).
  destruct (IH (upd mask j indicator) (upd stats j (x + d)%Z)) as (m' & s' & E & L1 & L2).
  - rewrite !upd_length. auto.
  - intros i Hi. rewrite upd_length. apply H. right; auto.
  - rewrite !upd_length in *. eauto.
Qed.

Lemma progress_from isEqual original cols numExamples numFeatures weight st conditions f :
  (forall f, f < numFeatures -> represents (cols f) (seq 0 numExamples) (original f) /\ supported_by (cols f) (seq 0 numExamples) (original f)) ->
  Inv original cols numExamples numFeatures weight st conditions ->
  f < numFeatures ->
  exists vec st', refresh isEqual original f st = Some (vec, st') /\
    (vec <> EqualVec -> forall e, valid_interval vec e -> filterSubspace isEqual original f e st <> None).
Proof.
  intros HO HI Hf.
  assert (ER: exists vec st', refresh isEqual original f st = Some (vec, st')).
  { destruct HI as (_ & _ & H3 & _). unfold refresh. destruct (aget_Some (sCache st) f) as ((ptr, m) & E); [lia|]. rewrite E.
    destruct (m <? sModifications st); [|eauto]. rewrite aset_Some by lia. eauto. }
  destruct ER as (vec & st' & ER). exists vec, st'. split; [exact ER|]. intros VN e (VB & VP).
  assert (R := refresh_represents _ _ _ _ _ _ HO _ _ _ _ _ HI ER).
  destruct (refresh_spec _ _ _ _ _ _ HO _ _ _ _ _ HI ER) as (_ & HI' & _ & _ & _ & _ & _ & RV).
  destruct (represents_bins _ _ _ R VN) as (ND & IC & NM & IM).
  destruct HI' as (H1 & H2 & H3 & _). unfold filterSubspace. rewrite ER.
  destruct (aget_Some (sCache st') f) as ((ptr, m) & E); [lia|]. rewrite E.
  assert (BC: forall i, In i (coveredBy cols numExamples conditions) -> i < numExamples).
  { intros i Hi. apply filter_In in Hi. destruct Hi as (Hi & _). apply in_seq in Hi. lia. }
  assert (B1: forall i, In i (concat (slice (eStart e) (eEnd e) (binsOf vec))) -> i < numExamples).
  { intros i Hi. apply between_slice, between_In, IC in Hi. apply filter_In in Hi. apply BC. tauto. }
  assert (B2: forall i, In i (missingOf vec) -> i < numExamples) by (intros i Hi; apply IM in Hi; apply BC; tauto).
  assert (EU: exists mask ind stats, updateCoverageMaskAndStatistics (eStart e) (eEnd e) (eInverse e) vec (sIndicator st')
    (sModifications st' + 1) (sMask st') (sStatistics st') = Some (mask, ind, stats)).
  { unfold updateCoverageMaskAndStatistics.
    destruct (markAll_succeeds (concat (slice (eStart e) (eEnd e) (binsOf vec))) (sModifications st' + 1) (-1) (sMask st')
      (sStatistics st')) as (m1 & s1 & E1 & L1 & L1'); [congruence|intros i Hi; apply B1 in Hi; lia|].
    destruct (markAll_succeeds (missingOf vec) (sModifications st' + 1) (-1) m1 s1) as (m2 & s2 & E2 & _);
      [congruence|intros i Hi; apply B2 in Hi; lia|].
    destruct (markAll_succeeds (concat (slice (eStart e) (eEnd e) (binsOf vec))) (sModifications st' + 1) 1 (sMask st')
      (repeat 0%Z (length (sStatistics st')))) as (m3 & s3 & E3 & _);
      [rewrite repeat_length; congruence|intros i Hi; apply B1 in Hi; lia|].
    assert (LT: (length (binsOf vec) <? eEnd e) = false) by (apply Nat.ltb_ge; lia).
    destruct vec; [congruence| | |]; rewrite LT; cbv zeta; (destruct (eInverse e); [rewrite E1, E2|rewrite E3]); eauto. }
  destruct EU as (mask & ind & stats & EU). rewrite EU.
  assert (EI: exists w, filterByInterval isEqual (match ptr with Some _ => true | None => false end) (eStart e) (eEnd e)
    (eInverse e) vec = Some w).
  { destruct vec as [|v sv sp ms|k vs bs mj ms|t b s ms]; [congruence| | |]; cbn [filterByInterval].
    - cbn [binsOf] in VB, VP. rewrite map_length in VB, VP.
      destruct (open_interval (eStart e) (eEnd e) (eInverse e) (length v) VB VP) as (a & b & -> & B & _).
      destruct (Nat.ltb_spec 0 (b - a)); [|eauto]. destruct sp; [eauto|].
      destruct (aget_Some v a) as ((i, x) & ->); [lia|]. destruct (aget_Some v (b - a - 1)) as ((j, y) & ->); [lia|].
      destruct (isEqual x y); eauto.
    - destruct k; [| |eauto].
      + destruct (eInverse e); [|eauto]. destruct (concat (firstn (eStart e) bs ++ skipn (eEnd e) bs)); eauto.
      + destruct (getStartAndEndOfOpenInterval _ _ _ _) as (a & b). destruct (0 <? b - a); eauto.
    - destruct (getStartAndEndOfOpenInterval _ _ _ _) as (x & y). destruct (0 <? y - x); eauto. }
  destruct EI as (w & EI). rewrite EI. rewrite aset_Some by lia. discriminate.
Qed.

Lemma progress isEqual original cols numExamples numFeatures weight st conditions f :
  (forall f, f < numFeatures -> represents (cols f) (seq 0 numExamples) (original f) /\ supported_by (cols f) (seq 0 numExamples) (original f)) ->
  reaches isEqual original numExamples numFeatures weight (exact_condition cols numExamples weight) st conditions ->
  f < numFeatures ->
  exists vec st', refresh isEqual original f st = Some (vec, st') /\
    (vec <> EqualVec -> forall e, valid_interval vec e -> filterSubspace isEqual original f e st <> None).
Proof. intros HO H Hf. apply (progress_from isEqual original cols numExamples numFeatures weight st conditions f HO); auto. eapply runs; eauto. Qed.
