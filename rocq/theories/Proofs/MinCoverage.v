(** Proofs about the minimum number of examples a rule must cover. *)
From Coq Require Import ZArith Arith List Bool Lia.
From Verif Require Import Lib.Arr Model.Floats Model.MinCoverage Spec.Floats Proofs.Floats Proofs.FloatFractions.
From Verif Require Import Model.Search Model.Filter Spec.Search Spec.Filter Proofs.SearchFindings Proofs.FilterFound
  Proofs.FilterFindings.
Import ListNotations.
Open Scope Z_scope.

Lemma relative_error (x y : Z) :
  (least32 | x) -> 0 < x -> round32 x = Finite y -> 2 ^ 24 * Z.abs (y - x) <= x.
Proof.
  intros Hd Hx R. pose proof (exponent_bounds 24 926 x) as (B & L).
  destruct (Z.eq_dec (exponent 24 926 x) 926) as [E|N].
  - apply round_inv in R. rewrite E in R. rewrite nearest_exact in R by (lia || exact Hd). subst y.
    replace (x - x) with 0 by lia. rewrite Z.abs_0. lia.
  - destruct (L ltac:(lia)) as [H|H]; [|lia]. apply round_error in R; [|lia].
    replace (exponent 24 926 x + 24 - 1) with (23 + exponent 24 926 x) in H by lia. rewrite Z.pow_add_r in H by lia.
    change (2 ^ 24) with (2 * 2 ^ 23). set (u := 2 ^ exponent 24 926 x) in *. clearbody u.
    rewrite (Z.abs_eq x) in H by lia. lia.
Qed.

Lemma one_unit (n : Z) : (least32 | n * one).
Proof. apply Z.divide_mul_r. unfold least32, one. apply pow_divide. lia. Qed.

Lemma product_error (n f : Z) :
  1 <= n < 2 ^ 32 -> isFloat32 f -> 0 < f < one ->
  exists y, mul round32 (Finite f) (uint32ToFloat32 n) = Finite y /\
  f * n * (2 ^ 23 - 1) <= y * 2 ^ 23 /\ y * 2 ^ 22 <= f * n * (2 ^ 22 + 1).
Proof.
  intros Hn Hf Hb. pose proof pow_1075 as P. destruct (product_bounds n f Hn Hf Hb) as (y & E & _).
  exists y. split; [exact E|]. destruct (uint32_conversion n Hn) as (m & Em & Bm & _). rewrite Em in E.
  unfold uint32ToFloat32 in Em. apply relative_error in Em; [|apply one_unit|nia].
  assert (Hm : 2 ^ 24 * Z.abs (m - n) <= n).
  { rewrite <- Z.mul_sub_distr_r, Z.abs_mul, (Z.abs_eq one) in Em by lia.
    apply (Z.mul_le_mono_pos_r _ _ one); lia. }
  cbn [mul] in E. rewrite Z.mul_assoc, Z.div_mul in E by lia.
  assert (M0 : 0 < m) by lia.
  apply relative_error in E; [|apply Z.divide_mul_l; now apply float32_unit|nia].
  assert (F : 2 ^ 24 * Z.abs (f * m - f * n) <= f * n).
  { rewrite <- Z.mul_sub_distr_l, Z.abs_mul, (Z.abs_eq f) by lia. nia. }
  set (u := f * m) in *. set (v := f * n) in *. clearbody u v.
  change (2 ^ 24) with 16777216 in *. change (2 ^ 23) with 8388608. change (2 ^ 22) with 4194304. lia.
Qed.

Lemma required_coverage :
  forall n minCoverage f,
  1 <= n < 2 ^ 32 -> 1 <= minCoverage -> isFloat32 f -> f < one ->
  exists m, requiredCoverage n minCoverage (Finite f) = Some m /\ Z.min minCoverage n <= m <= n /\
  f * n * (2 ^ 23 - 1) <= m * one * 2 ^ 23 /\
  (m = Z.min minCoverage n \/ (m - 1) * one * 2 ^ 22 < f * n * (2 ^ 22 + 1)).
Proof.
  intros n minCoverage f Hn Hc Hf Hb. pose proof pow_1075 as P. unfold requiredCoverage, gtb, leqb.
  destruct (Z.leb_spec f 0) as [F|F]; cbn [negb].
  - exists (Z.min n minCoverage). split; [reflexivity|]. split; [lia|]. split; [|left; lia].
    assert (0 <= Z.min n minCoverage * one) by nia. assert (f * n <= 0) by nia.
    change (2 ^ 23) with 8388608. nia.
  - destruct (product_error n f Hn Hf ltac:(lia)) as (y & E & Ly & Uy).
    destruct (product_bounds n f Hn Hf ltac:(lia)) as (y' & E' & By). rewrite E in E'. injection E' as <-.
    unfold calculateBoundedFraction. rewrite E. destruct (ceil_bounds y) as (c & -> & Bc).
    assert (C0 : 0 < c) by (apply (Z.mul_lt_mono_pos_r one); lia).
    assert (C1 : c < n + 1) by (apply (Z.mul_lt_mono_pos_r one); [lia|]; rewrite Z.mul_add_distr_r; lia).
    rewrite toUint32_int by lia. cbv zeta.
    assert (Em : (if n <? minCoverage then n else minCoverage) = Z.min minCoverage n) by (destruct (Z.ltb_spec n minCoverage); lia).
    rewrite Em. eexists. split; [reflexivity|].
    assert (K : forall m, c <= m -> f * n * (2 ^ 23 - 1) <= m * one * 2 ^ 23).
    { intros m Hm. assert (c * one <= m * one) by nia. lia. }
    destruct (Z.ltb_spec c (Z.min minCoverage n)) as [L|L].
    + split; [lia|]. split; [apply K; lia|]. now left.
    + assert (Er : (if (minCoverage <=? n) && (n <? c) then n else c) = c).
      { destruct (Z.ltb_spec n c); [lia|]. now rewrite andb_false_r. }
      rewrite Er. split; [lia|]. split; [apply K; lia|]. right. rewrite Z.mul_sub_distr_r.
      change (2 ^ 22) with 4194304 in *. lia.
Qed.

(** ** Rules *)

Close Scope Z_scope.

Lemma refresh_covered isEqual original f st vec st' :
  refresh isEqual original f st = Some (vec, st') -> sCovered st' = sCovered st.
Proof.
  unfold refresh. destruct (aget (sCache st) f) as [[p c]|]; [|discriminate]. cbv zeta.
  destruct (c <? sModifications st).
  - destruct (aset _ _ _) as [cache|]; [|discriminate]. intros [= <- <-]. reflexivity.
  - intros [= <- <-]. reflexivity.
Qed.

Lemma filter_covered isEqual original f e st st' :
  filterSubspace isEqual original f e st = Some st' -> sCovered st' = eCovered e.
Proof.
  unfold filterSubspace. destruct (refresh _ _ _ _) as [[vec st1]|]; [|discriminate].
  destruct (aget (sCache st1) f) as [[p c]|]; [|discriminate]. cbv zeta.
  destruct (updateCoverageMaskAndStatistics _ _ _ _ _ _ _ _) as [[[mask ind] stats]|]; [|discriminate].
  destruct (filterByInterval _ _ _ _ _) as [vec'|]; [|discriminate].
  destruct (aset _ _ _) as [cache|]; [|discriminate]. intros [= <-]. reflexivity.
Qed.

Lemma reaches_covered isEqual original numExamples numFeatures weight
    (correct : subspace -> list (nat * test) -> nat -> fvec -> evaluated -> Prop) minimum :
  (forall st conditions f vec e, correct st conditions f vec e -> minimum <= eCovered e) ->
  forall st conditions, reaches isEqual original numExamples numFeatures weight correct st conditions ->
  conditions <> [] -> minimum <= sCovered st.
Proof.
  intros HC st conditions H. induction H as [|f st conditions vec st' H IH E|st conditions H IH|f e st conditions vec st' st'' H IH E C F].
  - congruence.
  - intros N. rewrite (refresh_covered _ _ _ _ _ _ E). auto.
  - intros N. cbn [copySubspace sCovered]. auto.
  - intros _. rewrite (filter_covered _ _ _ _ _ _ F). eauto.
Qed.

Lemma reaches_weaken isEqual original numExamples numFeatures weight
    (P Q : subspace -> list (nat * test) -> nat -> fvec -> evaluated -> Prop) :
  (forall st conditions f vec e, P st conditions f vec e -> Q st conditions f vec e) ->
  forall st conditions, reaches isEqual original numExamples numFeatures weight P st conditions ->
  reaches isEqual original numExamples numFeatures weight Q st conditions.
Proof.
  intros HC st conditions H. induction H as [|f st conditions vec st' H IH E|st conditions H IH|f e st conditions vec st' st'' H IH E C F].
  - apply reaches_new.
  - eapply reaches_search; eauto.
  - now apply reaches_copy.
  - eapply reaches_filter; eauto.
Qed.

Lemma found_minimum isEqual numExamples weight minCoverage st conditions f vec e :
  found_condition isEqual numExamples weight minCoverage st conditions f vec e -> minCoverage <= eCovered e.
Proof.
  unfold found_condition. cbv zeta.
  destruct vec as [|v sparseValue sparse missing|[] values bins majority missing|thresholds bins sparseBin missing]; try contradiction.
  all: try (intros (l & S & I); first [apply numerical_min in S|apply nominal_min in S|apply ordinal_min in S|apply binned_min in S];
    rewrite Forall_forall in S; now apply S).
  intros (v & ids & _ & _ & I). revert e I. apply Forall_forall. apply binary_min.
Qed.

Open Scope Z_scope.

Lemma enough (n minCoverage f m : Z) (k : nat) :
  1 <= n < 2 ^ 32 -> 1 <= minCoverage -> isFloat32 f -> f < one -> requiredCoverage n minCoverage (Finite f) = Some m ->
  (Z.to_nat m <= k)%nat -> Z.min minCoverage n <= Z.of_nat k /\ f * n * (2 ^ 23 - 1) <= Z.of_nat k * one * 2 ^ 23.
Proof.
  intros Hn Hc Hf Hb E Hk. destruct (required_coverage n minCoverage f Hn Hc Hf Hb) as (m' & E' & B & L & _).
  rewrite E in E'. injection E' as <-. split; [lia|]. pose proof pow_1075 as P.
  assert (m * one <= Z.of_nat k * one) by (apply Z.mul_le_mono_nonneg_r; lia). lia.
Qed.

Lemma categorical_support :
  forall isEqual original cols numExamples numFeatures weight allWeighted minCoverage f m st conditions,
  1 <= Z.of_nat numExamples < 2 ^ 32 -> 1 <= minCoverage -> isFloat32 f -> f < one ->
  (forall i, (i < numFeatures)%nat ->
     represents (cols i) (seq 0 numExamples) (original i) /\ categorical allWeighted (original i)) ->
  (allWeighted = true -> forall i, (i < numExamples)%nat -> weight i = true) ->
  requiredCoverage (Z.of_nat numExamples) minCoverage (Finite f) = Some m ->
  reaches isEqual original numExamples numFeatures weight (found_condition isEqual numExamples weight (Z.to_nat m)) st conditions ->
  conditions <> [] ->
  let covered := Z.of_nat (length (filter weight (coveredBy cols numExamples conditions))) in
  Z.min minCoverage (Z.of_nat numExamples) <= covered /\ f * Z.of_nat numExamples * (2 ^ 23 - 1) <= covered * one * 2 ^ 23.
Proof.
  intros isEqual original cols numExamples numFeatures weight allWeighted minCoverage f m st conditions Hn Hc Hf Hb HO HW E H N covered.
  destruct (categorical_runs _ _ _ _ _ _ _ _ _ _ HO HW H) as (_ & _ & C).
  pose proof (reaches_covered _ _ _ _ _ _ _ (found_minimum isEqual numExamples weight (Z.to_nat m)) _ _ H N) as M.
  rewrite C in M. subst covered. eapply enough; eassumption.
Qed.

Lemma exact_support :
  forall isEqual original cols numExamples numFeatures weight minCoverage f m st conditions,
  1 <= Z.of_nat numExamples < 2 ^ 32 -> 1 <= minCoverage -> isFloat32 f -> f < one ->
  (forall i, (i < numFeatures)%nat ->
     represents (cols i) (seq 0 numExamples) (original i) /\ supported_by (cols i) (seq 0 numExamples) (original i)) ->
  requiredCoverage (Z.of_nat numExamples) minCoverage (Finite f) = Some m ->
  reaches isEqual original numExamples numFeatures weight
    (fun s cs i vec e => exact_condition cols numExamples weight s cs i vec e /\
       found_condition isEqual numExamples weight (Z.to_nat m) s cs i vec e) st conditions ->
  conditions <> [] ->
  let covered := Z.of_nat (length (filter weight (coveredBy cols numExamples conditions))) in
  Z.min minCoverage (Z.of_nat numExamples) <= covered /\ f * Z.of_nat numExamples * (2 ^ 23 - 1) <= covered * one * 2 ^ 23.
Proof.
  intros isEqual original cols numExamples numFeatures weight minCoverage f m st conditions Hn Hc Hf Hb HO E H N covered.
  assert (H1 : reaches isEqual original numExamples numFeatures weight (exact_condition cols numExamples weight) st conditions)
    by (revert H; apply reaches_weaken; tauto).
  destruct (exact_runs _ _ _ _ _ _ _ _ HO H1) as (_ & _ & C).
  pose proof (reaches_covered _ _ _ _ _ _ (Z.to_nat m) (fun s cs i vec e H => found_minimum _ _ _ _ _ _ _ _ _ (proj2 H)) _ _ H N) as M.
  rewrite C in M. subst covered. eapply enough; eassumption.
Qed.

Lemma covered_at_most (weight : nat -> bool) (p : nat -> bool) (l : list nat) :
  (length (filter weight (filter p l)) <= length (filter weight l))%nat.
Proof.
  induction l as [|x l IH]; [cbn; lia|]. cbn [filter]. destruct (p x); cbn [filter]; destruct (weight x); cbn [length]; lia.
Qed.

Lemma too_few_examples :
  forall isEqual original cols numExamples numFeatures weight allWeighted minCoverage f m st conditions,
  1 <= Z.of_nat numExamples < 2 ^ 32 -> 1 <= minCoverage -> isFloat32 f -> f < one ->
  (forall i, (i < numFeatures)%nat ->
     represents (cols i) (seq 0 numExamples) (original i) /\ categorical allWeighted (original i)) ->
  (allWeighted = true -> forall i, (i < numExamples)%nat -> weight i = true) ->
  requiredCoverage (Z.of_nat numExamples) minCoverage (Finite f) = Some m ->
  Z.of_nat (length (filter weight (seq 0 numExamples))) * one * 2 ^ 23 < f * Z.of_nat numExamples * (2 ^ 23 - 1) ->
  reaches isEqual original numExamples numFeatures weight (found_condition isEqual numExamples weight (Z.to_nat m)) st conditions ->
  conditions = [].
Proof.
  intros isEqual original cols numExamples numFeatures weight allWeighted minCoverage f m st conditions Hn Hc Hf Hb HO HW E L H.
  destruct conditions as [|c cs]; [reflexivity|exfalso].
  destruct (categorical_support _ _ _ _ _ _ _ _ _ _ _ _ Hn Hc Hf Hb HO HW E H ltac:(discriminate)) as (_ & S).
  pose proof (covered_at_most weight (satisfies cols (c :: cs)) (seq 0 numExamples)) as M. fold (coveredBy cols numExamples (c :: cs)) in M.
  pose proof pow_1075 as P. set (a := length (filter weight (coveredBy cols numExamples (c :: cs)))) in *.
  set (b := length (filter weight (seq 0 numExamples))) in *.
  assert (Z.of_nat a * one <= Z.of_nat b * one) by (apply Z.mul_le_mono_nonneg_r; lia). lia.
Qed.

(** ** Counterexamples *)

Definition original3 (i : nat) : fvec := NominalVec Nominal [1] [[0%nat]] 0 [2%nat; 3%nat].
Definition cols3 (i : nat) : column := someTable [Some 1; Some 0; None; None].
Definition threeQuarters : Z := 3 * 2 ^ 1073.

Lemma three_quarters : isFloat32 threeQuarters /\ 0 < threeQuarters < one.
Proof.
  split; [exists 3, 1073; split; [reflexivity|]; split; [reflexivity|]; split; [lia|reflexivity]|]. split; reflexivity.
Qed.

Lemma missing_support :
  exists original cols numExamples numFeatures f m st conditions,
  1 <= Z.of_nat numExamples < 2 ^ 32 /\ isFloat32 f /\ 0 < f < one /\
  (forall i, (i < numFeatures)%nat -> represents (cols i) (seq 0 numExamples) (original i)) /\
  requiredCoverage (Z.of_nat numExamples) 1 (Finite f) = Some m /\
  reaches Z.eqb original numExamples numFeatures always (found_condition Z.eqb numExamples always (Z.to_nat m)) st conditions /\
  conditions <> [] /\
  3 * (Z.of_nat (length (coveredBy cols numExamples conditions)) * one) <= f * Z.of_nat numExamples.
Proof.
  exists original3, cols3, 4%nat, 1%nat, threeQuarters, 3. eexists. exists ([] ++ [(0%nat, eTest (mkEval [1%nat] 0 1 true 3 (Neq 1)))]).
  split; [split; [lia|reflexivity]|]. split; [apply three_quarters|]. split; [apply three_quarters|]. split; [|split; [|split; [|split]]].
  - intros f Hf. unfold original3. cbn [represents missingOf].
    split; [repeat constructor; simpl; lia|]. split.
    { intros j. split.
      - intros H. simpl in H. intuition; subst; simpl; auto.
      - intros (H & E). simpl in H. intuition; subst; simpl; try discriminate; auto. }
    split; [nominal|nonemptys].
  - vm_compute. reflexivity.
  - eapply reaches_filter; [apply reaches_new|vm_compute; reflexivity| |vm_compute; reflexivity].
    unfold found_condition. eexists. split; [vm_compute; reflexivity|]. simpl. auto.
  - discriminate.
  - vm_compute. discriminate.
Qed.

Lemma rounded_support :
  exists n f m, 1 <= n < 2 ^ 32 /\ isFloat32 f /\ 0 < f < one /\ requiredCoverage n 1 (Finite f) = Some m /\ m * one < f * n.
Proof.
  exists 3, (11184811 * 2 ^ 1050), 1. split; [split; [lia|reflexivity]|].
  split; [exists 11184811, 1050; split; [reflexivity|]; split; [reflexivity|]; split; [lia|reflexivity]|].
  split; [split; reflexivity|]. split; vm_compute; reflexivity.
Qed.
