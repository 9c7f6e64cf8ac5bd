(** Proofs about the search for conditions on binned features. *)
From Coq Require Import ZArith Arith List Bool Sorted Permutation Lia.
From Verif Require Import Lib.Arr Model.Search Spec.Search Proofs.Search Proofs.SearchOrdinal Proofs.SearchNumerical.
Import ListNotations.
Open Scope nat_scope.

Section Binned.
Variables (examples : list nat) (weight : nat -> bool) (value : nat -> Z) (minCoverage : nat).
Variables (thresholds : list Z) (bins : list (list nat)) (sparseBin : nat).
Hypothesis HV : binned_vector examples value thresholds bins sparseBin.
Local Notation total := (filter weight examples).
Local Notation N := (length (filter weight examples)).
Local Notation n := (length bins).
Local Notation good := (good examples weight value bins minCoverage).

Lemma b_bins : bins_of examples bins.
Proof. apply HV. Qed.
Lemma b_nodup : NoDup (concat bins).
Proof. apply HV. Qed.

Lemma b_cases i : In i examples -> exists p, p < n /\
  (forall q t, nth_error thresholds q = Some t -> ((value i <= t)%Z <-> p <= q)) /\
  ((p <> sparseBin /\ forall a b, stored_between bins a b i <-> a <= p < b) \/
   (p = sparseBin /\ forall a b, stored_between bins a b i -> a <= p < b)).
Proof.
  intros Hi. destruct HV as (HB & HS & HL & Hs & HI). destruct (HI i Hi) as (p & Hp & H1 & H2 & H3 & H4).
  exists p. split; [exact Hp|]. split.
  - intros q t Eq. split.
    + intros Hv. destruct (le_lt_dec p q) as [H|H]; auto. exfalso. destruct p as [|p]; [lia|].
      destruct (nth_Some thresholds p) as (t' & Et'); [lia|]. pose proof (H2 t' p eq_refl Et').
      destruct (Nat.eq_dec q p) as [->|Hqp]; [assert (t = t') by congruence; lia|].
      pose proof (ss_nth _ _ HS q p t t' ltac:(lia) Eq Et'). lia.
    + intros H. destruct (nth_Some thresholds p) as (t' & Et'). { apply nth_len in Eq. lia. }
      pose proof (H1 t' Et'). destruct (Nat.eq_dec p q) as [->|Hqp]; [assert (t = t') by congruence; lia|].
      pose proof (ss_nth _ _ HS p q t' t ltac:(lia) Et' Eq). lia.
  - destruct (Nat.eq_dec p sparseBin) as [Hps|Hps].
    + right. split; auto. intros a b (q & ids & Hq & E & Hids). rewrite <- (H4 Hps q ids E Hids). exact Hq.
    + left. split; auto. destruct (H3 Hps) as (p' & ids & Hp' & E & Hids). assert (p' = p) by lia. subst p'.
      intros a b. split.
      * intros (q & ids' & Hq & E' & Hi'). assert (p = q) by (eapply (concat_position bins b_nodup); eauto). lia.
      * intros H. exists p, ids. auto.
Qed.

Lemma b_leq q t : nth_error thresholds q = Some t -> q < sparseBin -> forall i, In i examples ->
  (holds (Leq t) (value i) = true <-> stored_between bins 0 (S q) i).
Proof.
  intros E Hq i Hi. simpl. rewrite Z.leb_le. destruct (b_cases i Hi) as (p & Hp & HT & [[Hps HB]|[Hps HB]]); rewrite (HT _ _ E).
  - rewrite HB. lia.
  - split; [lia|]. intros H. apply HB in H. lia.
Qed.

Lemma b_gr q t : nth_error thresholds q = Some t -> sparseBin <= q -> forall i, In i examples ->
  (holds (Gr t) (value i) = true <-> stored_between bins (S q) n i).
Proof.
  intros E Hq i Hi. simpl. rewrite Z.ltb_lt. destruct (b_cases i Hi) as (p & Hp & HT & [[Hps HB]|[Hps HB]]); pose proof (HT _ _ E).
  - rewrite HB. lia.
  - split; [lia|]. intros H'. apply HB in H'. lia.
Qed.

Lemma leq_compl t f : holds (Gr t) f = negb (holds (Leq t) f).
Proof. simpl. rewrite Z.ltb_antisym. reflexivity. Qed.
Lemma gr_compl t f : holds (Leq t) f = negb (holds (Gr t) f).
Proof. rewrite leq_compl, negb_involutive. reflexivity. Qed.

Lemma bup_spec cnt : forall i c s l,
  i + cnt = sparseBin -> 0 < i -> range weight bins (ssCurrent s) 0 i c -> Forall good l ->
  exists c' s' l', binnedUp weight total N minCoverage thresholds bins cnt i c s l = Some (c', s', l') /\
    range weight bins (ssCurrent s') 0 sparseBin c' /\ ssAccumulated s' = ssAccumulated s /\ Forall good l'.
Proof.
  pose proof HV as (_ & _ & HL & Hs & _).
  induction cnt as [|cnt IH]; intros i c s l Hi H0 HR HG; cbn [binnedUp].
  - assert (i = sparseBin) by lia. subst i. exists c, s, l. auto.
  - destruct (nth_Some thresholds (i - 1)) as (t & Et); [lia|]. destruct (nth_Some bins i) as (ids & Eb); [lia|].
    unfold evaluateAt, aget. rewrite Et, Eb.
    assert (HL1: exists l1, (if (minCoverage <=? c) || (minCoverage <=? N - c)
              then Some (evaluate total N minCoverage s 0 i c (Leq t) (Gr t) l) else Some l) = Some l1 /\ Forall good l1).
    { destruct ((minCoverage <=? c) || (minCoverage <=? N - c)); [|eauto]. eexists. split; [reflexivity|].
      apply (evaluate_spec examples weight value bins minCoverage b_bins); auto.
      - intros x Hx. replace i with (S (i - 1)) by lia. apply b_leq; auto. lia.
      - intros x Hx. apply leq_compl. }
    destruct HL1 as (l1 & E1 & G1). rewrite E1, add_all.
    apply (IH (i + 1) _ (mkSubset (ssCurrent s ++ filter weight ids) (ssAccumulated s))); auto; try lia. cbn [ssCurrent].
    apply range_app with (b := i); [apply b_nodup|lia|exact HR|]. rewrite Nat.add_1_r. apply range_one; [apply b_nodup|exact Eb].
Qed.

Lemma bdown_spec cnt : forall c s l,
  sparseBin + cnt + 1 < n -> range weight bins (ssCurrent s) (sparseBin + cnt + 1) n c -> Forall good l ->
  exists c' s' l', binnedDown weight total N minCoverage thresholds bins sparseBin cnt c s l = Some (c', s', l') /\
    range weight bins (ssCurrent s') (S sparseBin) n c' /\ ssAccumulated s' = ssAccumulated s /\ Forall good l'.
Proof.
  pose proof HV as (_ & _ & HL & Hs & _).
  induction cnt as [|cnt IH]; intros c s l Hi HR HG; cbn [binnedDown].
  - exists c, s, l. split; [reflexivity|]. split; [|auto]. replace (S sparseBin) with (sparseBin + 0 + 1) by lia. exact HR.
  - destruct (nth_Some thresholds (sparseBin + S cnt)) as (t & Et); [lia|].
    destruct (nth_Some bins (sparseBin + S cnt)) as (ids & Eb); [lia|].
    unfold evaluateAt, aget. rewrite Et, Eb.
    assert (HL1: exists l1, (if (minCoverage <=? c) || (minCoverage <=? N - c)
              then Some (evaluate total N minCoverage s (sparseBin + S cnt + 1) n c (Gr t) (Leq t) l) else Some l) = Some l1 /\
              Forall good l1).
    { destruct ((minCoverage <=? c) || (minCoverage <=? N - c)); [|eauto]. eexists. split; [reflexivity|].
      apply (evaluate_spec examples weight value bins minCoverage b_bins); auto.
      - intros x Hx. rewrite Nat.add_1_r. apply b_gr; auto. lia.
      - intros x Hx. apply gr_compl. }
    destruct HL1 as (l1 & E1 & G1). rewrite E1, add_all.
    apply (IH _ (mkSubset (ssCurrent s ++ filter weight ids) (ssAccumulated s))); auto; try lia. cbn [ssCurrent].
    apply range_app' with (b := sparseBin + S cnt + 1); [apply b_nodup|lia|exact HR|].
    replace (sparseBin + cnt + 1) with (sparseBin + S cnt) by lia. rewrite Nat.add_1_r. apply range_one; [apply b_nodup|exact Eb].
Qed.

Lemma binned_search : 0 < minCoverage -> sparseBin < length thresholds ->
  exists l, searchBinned weight total N minCoverage thresholds bins sparseBin = Some l /\
    (forall e, In e l -> good e \/ (eInverse e = true /\ eStart e = S sparseBin /\ eEnd e = n)).
Proof.
  intros Hm Hst. pose proof HV as (_ & _ & HL & Hs & _). unfold searchBinned, aget.
  destruct (nth_Some bins 0) as (b0 & Eb0); [lia|]. rewrite Eb0.
  destruct (nth_Some bins (n - 1)) as (bl & Ebl); [lia|]. rewrite Ebl.
  destruct (nth_Some thresholds sparseBin) as (ts & Ets); [lia|]. rewrite Ets.
  assert (H1: exists numLess s l,
    match (if 0 <? sparseBin then Some (addAllToSubset weight b0 emptySubset) else Some (emptySubset, 0)) with
    | Some (s, numCovered) =>
        if 0 <? numCovered then
          let* (numCovered, s, l) := binnedUp weight total N minCoverage thresholds bins (sparseBin - 1) 1 numCovered s [] in
          Some (numCovered, resetSubset s, l)
        else Some (numCovered, s, [])
    | None => None
    end = Some (numLess, s, l) /\ ssCurrent s = [] /\ Forall good l /\
    (0 < numLess -> 0 < sparseBin /\ exists acc, ssAccumulated s = Some acc /\ range weight bins acc 0 sparseBin numLess)).
  { destruct (Nat.ltb_spec 0 sparseBin) as [Hp|Hp].
    - rewrite add_all. destruct (filter weight b0) as [|x r] eqn:Ef.
      + exists 0, emptySubset, []. split; [reflexivity|]. split; [reflexivity|]. split; [constructor|lia].
      + change (0 <? length (x :: r)) with true. cbv iota.
        destruct (bup_spec (sparseBin - 1) 1 (length (x :: r)) (mkSubset (ssCurrent emptySubset ++ x :: r) (ssAccumulated emptySubset)) [])
          as (c' & s' & l' & E & R & A & G); try lia; auto.
        { cbn [ssCurrent]. rewrite <- Ef. apply range_one; [apply b_nodup|exact Eb0]. }
        rewrite E. exists c', (resetSubset s'), l'. split; [reflexivity|]. split; [reflexivity|]. split; [exact G|].
        intros _. split; [exact Hp|]. exists (ssCurrent s'). cbn. rewrite A. cbn. auto.
    - exists 0, emptySubset, []. split; [reflexivity|]. split; [reflexivity|]. split; [constructor|lia]. }
  destruct H1 as (numLess & s & l & E1 & SC & G1 & KP).
  assert (H2: exists c s' l',
    match (if sparseBin <? n - 1 then Some (addAllToSubset weight bl s) else Some (s, 0)) with
    | Some (s, numCovered) =>
        if 0 <? numCovered then binnedDown weight total N minCoverage thresholds bins sparseBin (n - 2 - sparseBin) numCovered s l
        else Some (numCovered, s, l)
    | None => None
    end = Some (c, s', l') /\
    (0 < c -> range weight bins (ssCurrent s') (S sparseBin) n c) /\ ssAccumulated s' = ssAccumulated s /\ Forall good l').
  { assert (Hlt: sparseBin <? n - 1 = true) by (apply Nat.ltb_lt; lia). rewrite Hlt, add_all, SC. cbn [app].
    destruct (filter weight bl) as [|x r] eqn:Ef.
    - exists 0, (mkSubset [] (ssAccumulated s)), l. split; [reflexivity|]. split; [lia|]. auto.
    - change (0 <? length (x :: r)) with true. cbv iota.
      destruct (bdown_spec (n - 2 - sparseBin) (length (x :: r)) (mkSubset (x :: r) (ssAccumulated s)) l)
        as (c' & s' & l' & E & R & A & G); auto; try lia.
      { cbn [ssCurrent]. rewrite <- Ef. replace (sparseBin + (n - 2 - sparseBin) + 1) with (n - 1) by lia.
        replace n with (S (n - 1)) at 2 by lia. apply range_one; [apply b_nodup|exact Ebl]. }
      exists c', s', l'. split; [exact E|]. auto. }
  destruct H2 as (c & s' & l' & E2 & R2 & A2 & G2).
  assert (H3: exists l3, evaluateSparseBin N minCoverage s' (sparseBin + 1) n c (Some ts) l' = Some l3 /\
    (forall e, In e l3 -> good e \/ (eInverse e = true /\ eStart e = S sparseBin /\ eEnd e = n))).
  { unfold evaluateSparseBin. destruct ((minCoverage <=? c) || (minCoverage <=? N - c)) eqn:Q.
    - eexists. split; [reflexivity|]. intros e He. unfold consider in He. cbn [eCovered] in He.
      assert (HX: In e (if minCoverage <=? c then l' ++ [mkEval (ssCurrent s') (sparseBin + 1) n false c (Gr ts)] else l') ->
                  good e \/ (eInverse e = true /\ eStart e = S sparseBin /\ eEnd e = n)).
      { rewrite Forall_forall in G2. destruct (Nat.leb_spec minCoverage c) as [Hc|Hc]; auto.
        rewrite in_app_iff. simpl. intros [H|[<-|[]]]; auto. left. rewrite Nat.add_1_r. split; [|exact Hc]. split.
        - apply (range_exactly examples weight value bins b_bins _ (S sparseBin) n); [apply R2; lia|]. apply b_gr; auto.
        - intros i Hi. cbn. apply b_gr; auto. }
      destruct (minCoverage <=? N - c); auto. apply in_app_iff in He. destruct He as [He|[<-|[]]]; auto.
      right. cbn. rewrite Nat.add_1_r. auto.
    - exists l'. split; [reflexivity|]. rewrite Forall_forall in G2. auto. }
  destruct H3 as (l3 & E3 & V3).
  assert (HE: forall l4,
    (if (0 <? numLess) && (numLess <? N) then
       if (minCoverage <=? numLess) || (minCoverage <=? N - numLess) then
         let* t := nth_error thresholds (sparseBin - 1) in
         evaluateAccumulated total N minCoverage s' 0 sparseBin numLess (Leq t) (Gr t) l3
       else Some l3
     else Some l3) = Some l4 -> searchBinned weight total N minCoverage thresholds bins sparseBin = Some l4).
  { intros l4 E4. unfold searchBinned, aget. rewrite Eb0, Ebl, Ets.
    destruct (if 0 <? sparseBin then _ else _) as [[s0 c0]|]; [|discriminate E1]. rewrite E1.
    destruct (if sparseBin <? n - 1 then _ else _) as [[s1 c1]|]; [|discriminate E2]. rewrite E2, E3. exact E4. }
  fold (aget bins 0).
  destruct (Nat.ltb_spec 0 numLess) as [Hl|Hl]; cbn [andb] in HE.
  2: { specialize (HE l3 eq_refl). unfold searchBinned, aget in HE. rewrite Eb0, Ebl, Ets in HE. exists l3. split; [exact HE|exact V3]. }
  destruct (Nat.ltb_spec numLess N) as [HN|HN].
  2: { specialize (HE l3 eq_refl). unfold searchBinned, aget in HE. rewrite Eb0, Ebl, Ets in HE. exists l3. split; [exact HE|exact V3]. }
  destruct ((minCoverage <=? numLess) || (minCoverage <=? N - numLess)).
  2: { specialize (HE l3 eq_refl). unfold searchBinned, aget in HE. rewrite Eb0, Ebl, Ets in HE. exists l3. split; [exact HE|exact V3]. }
  destruct (KP Hl) as (Hp & acc & Ea & Ra).
  destruct (nth_Some thresholds (sparseBin - 1)) as (t & Et); [lia|]. rewrite Et in HE.
  destruct (evaluate_accumulated_spec examples weight value bins minCoverage b_bins s' acc 0 sparseBin numLess
              (Leq t) (Gr t) []) as (l5 & E5 & G5 & I5 & D1 & D2); auto.
  { congruence. }
  { intros x Hx. replace sparseBin with (S (sparseBin - 1)) by lia. apply b_leq; auto. lia. }
  { intros x Hx. apply leq_compl. }
  assert (E6: evaluateAccumulated total N minCoverage s' 0 sparseBin numLess (Leq t) (Gr t) l3 = Some (l3 ++ l5)).
  { revert E5. unfold evaluateAccumulated. rewrite A2, Ea. destruct (minCoverage <=? numLess), (minCoverage <=? N - numLess); intros [= <-];
      rewrite ?app_nil_r, ?app_assoc; simpl; rewrite <- ?app_assoc; reflexivity. }
  specialize (HE _ E6). unfold searchBinned, aget in HE. rewrite Eb0, Ebl, Ets in HE.
  exists (l3 ++ l5). split; [exact HE|]. intros e He. apply in_app_iff in He. destruct He as [He|He]; auto.
  left. rewrite Forall_forall in G5. auto.
Qed.

End Binned.
