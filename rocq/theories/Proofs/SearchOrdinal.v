(** Proofs about the search for conditions on ordinal features. *)
From Coq Require Import ZArith Arith List Bool Sorted Permutation Lia.
From Verif Require Import Lib.Arr Model.Search Spec.Search Proofs.Search.
Import ListNotations.
Open Scope nat_scope.

Lemma ss_nth {A} (R : A -> A -> Prop) l : StronglySorted R l -> forall p q a b,
  p < q -> nth_error l p = Some a -> nth_error l q = Some b -> R a b.
Proof.
  induction 1 as [|x l HS IH HF]; intros p q a b Hpq Hp Hq; [destruct p; discriminate|].
  destruct q as [|q]; [lia|]. destruct p as [|p]; simpl in Hp, Hq.
  - injection Hp as ->. rewrite Forall_forall in HF. apply HF. eapply nth_error_In; eauto.
  - apply (IH p q a b); auto; lia.
Qed.

Lemma nth_Some {A} (l : list A) p : p < length l -> exists x, nth_error l p = Some x.
Proof. intros H. destruct (nth_error l p) eqn:E; eauto. apply nth_error_None in E. lia. Qed.

Lemma nth_len {A} (l : list A) p x : nth_error l p = Some x -> p < length l.
Proof. intros H. apply nth_error_Some. congruence. Qed.

Ltac fin := repeat (match goal with |- _ /\ _ => split end); auto using incl_refl.

Section Ordinal.
Variables (examples : list nat) (weight : nat -> bool) (value : nat -> Z) (minCoverage : nat).
Variables (values : list Z) (bins : list (list nat)) (majority : Z).
Hypothesis HO : ordinal_vector examples value values bins majority.
Local Notation total := (filter weight examples).
Local Notation N := (length (filter weight examples)).
Local Notation n := (length values).

Lemma o_bins : bins_of examples bins.
Proof. apply HO. Qed.
Lemma o_nodup : NoDup (concat bins).
Proof. apply HO. Qed.
Lemma o_len : length bins = n.
Proof. symmetry. apply HO. Qed.

Lemma o_cases i : In i examples ->
  (exists p, p < n /\ nth_error values p = Some (value i) /\ (forall a b, stored_between bins a b i <-> a <= p < b)) \/
  (value i = majority /\ forall a b, ~ stored_between bins a b i).
Proof.
  intros Hi. destruct HO as [(HB & HL & ND & HV & HM) HS]. destruct (in_dec Nat.eq_dec i (concat bins)) as [Hin|Hin].
  - left. destruct (In_between bins i Hin) as (p & ids & Hp & Ep & Hids). exists p.
    destruct (nth_Some values p) as (v & Ev); [lia|].
    split; [lia|]. split; [rewrite (HV p ids v i); auto|]. intros a b. split.
    + intros (q & ids' & Hq & Eq & Hi'). assert (p = q) by (eapply (concat_position bins o_nodup); eauto). lia.
    + intros H. exists p, ids. auto.
  - right. split; auto. intros a b H. apply Hin. eapply between_In; eauto.
Qed.

Lemma o_ne p v : nth_error values p = Some v -> v <> majority.
Proof.
  intros E ->. destruct HO as [(_ & _ & ND & _) _]. apply NoDup_cons_iff in ND. destruct ND as [H _]. apply H.
  eapply nth_error_In; eauto.
Qed.

Lemma o_lt p q a b : p < q -> nth_error values p = Some a -> nth_error values q = Some b -> (a < b)%Z.
Proof. apply ss_nth. apply HO. Qed.

Lemma o_le p q a b : nth_error values p = Some a -> nth_error values q = Some b -> ((a <= b)%Z <-> p <= q).
Proof.
  intros Ea Eb. destruct (lt_eq_lt_dec p q) as [[H| ->]|H].
  - pose proof (o_lt _ _ _ _ H Ea Eb). lia.
  - rewrite Ea in Eb. injection Eb as ->. lia.
  - pose proof (o_lt _ _ _ _ H Eb Ea). lia.
Qed.

Lemma o_less p v : nth_error values p = Some v -> (v < majority)%Z -> forall i, In i examples ->
  (holds (Leq v) (value i) = true <-> stored_between bins 0 (S p) i).
Proof.
  intros E Hv i Hi. simpl. rewrite Z.leb_le. destruct (o_cases i Hi) as [(q & Hq & Eq & HB)|[Hm HB]].
  - rewrite HB, (o_le q p _ _ Eq E). lia.
  - rewrite Hm. split; [lia|]. intros H. exfalso. eapply HB; eauto.
Qed.

Lemma o_greater p v : nth_error values p = Some v -> (majority < v)%Z -> forall i, In i examples ->
  (holds (Gr v) (value i) = true <-> stored_between bins (S p) n i).
Proof.
  intros E Hv i Hi. simpl. rewrite Z.ltb_lt. destruct (o_cases i Hi) as [(q & Hq & Eq & HB)|[Hm HB]].
  - rewrite HB. pose proof (o_le q p _ _ Eq E). lia.
  - rewrite Hm. split; [lia|]. intros H. exfalso. eapply HB; eauto.
Qed.

(** [k] is the number of values less than the majority value. *)
Definition boundary (k : nat) : Prop :=
  k <= n /\ forall p v, nth_error values p = Some v -> ((v < majority)%Z <-> p < k).

Lemma o_majority k : boundary k -> forall i, In i examples ->
  (holds (Gr majority) (value i) = true <-> stored_between bins k n i).
Proof.
  intros (Hk & HK) i Hi. simpl. rewrite Z.ltb_lt. destruct (o_cases i Hi) as [(q & Hq & Eq & HB)|[Hm HB]].
  - rewrite HB. pose proof (HK _ _ Eq). pose proof (o_ne _ _ Eq). lia.
  - rewrite Hm. split; [lia|]. intros H. exfalso. eapply HB; eauto.
Qed.

Local Notation good := (good examples weight value bins minCoverage).
Local Notation has := (has examples weight value minCoverage).

Lemma up_spec cnt : forall i previous c s l,
  i + cnt = n -> 0 < i -> range weight bins (ssCurrent s) 0 i c -> nth_error values (i - 1) = Some previous ->
  (previous < majority)%Z -> Forall good l ->
  (forall p v, p < i - 1 -> nth_error values p = Some v -> has (Leq v) l /\ has (Gr v) l) ->
  exists k previous' c' s' l', ordinalUp weight total N minCoverage values bins majority cnt i previous c s l =
      Some (k, previous', c', s', l') /\
    boundary k /\ 0 < k /\ c <= c' /\ range weight bins (ssCurrent s') 0 k c' /\ ssAccumulated s' = ssAccumulated s /\
    nth_error values (k - 1) = Some previous' /\ Forall good l' /\ incl l l' /\
    (forall p v, p < k - 1 -> nth_error values p = Some v -> has (Leq v) l' /\ has (Gr v) l').
Proof.
  induction cnt as [|cnt IH]; intros i previous c s l Hn Hi HR Ep Hp HG HH; cbn [ordinalUp].
  - exists i, previous, c, s, l. split; [reflexivity|]. split; [|fin].
    split; [lia|]. intros p v H. split.
    + intros _. pose proof (nth_len _ _ _ H). lia.
    + intros H'. assert (v <= previous)%Z by (eapply o_le; eauto; lia). lia.
  - destruct (nth_Some values i) as (cur & Ec); [lia|]. unfold aget. rewrite Ec.
    destruct (Z.leb_spec majority cur) as [Hc|Hc].
    + exists i, previous, c, s, l. split; [reflexivity|]. split; [|fin].
      split; [lia|]. intros p v H. split.
      * intros H'. destruct (le_lt_dec i p); auto. assert (cur <= v)%Z by (eapply o_le; eauto). lia.
      * intros H'. assert (v <= previous)%Z by (eapply o_le; eauto; lia). lia.
    + destruct (nth_Some bins i) as (ids & Eb); [rewrite o_len; lia|]. rewrite Eb, add_all.
      destruct (evaluate_spec examples weight value bins minCoverage o_bins s 0 i c (Leq previous) (Gr previous) l)
        as (G & I & C1 & C2); auto.
      { intros j Hj. replace i with (S (i - 1)) by lia. apply o_less; auto. }
      { intros j Hj. simpl. rewrite Z.ltb_antisym. reflexivity. }
      edestruct (IH (i + 1) cur (c + length (filter weight ids)) (mkSubset (ssCurrent s ++ filter weight ids) (ssAccumulated s))) as
        (k & previous' & c' & s' & l' & E & HK & K0 & Hcc & R' & A' & P' & G' & I' & H').
      * lia.
      * lia.
      * cbn [ssCurrent]. apply range_app with (b := i); [apply o_nodup|lia|exact HR|].
        rewrite Nat.add_1_r. apply range_one; [apply o_nodup|exact Eb].
      * replace (i + 1 - 1) with i by lia. exact Ec.
      * lia.
      * exact G.
      * intros p v Hp' Ev. destruct (Nat.eq_dec p (i - 1)) as [->|Hne].
        -- assert (v = previous) by congruence. subst. auto.
        -- destruct (HH p v) as [H1 H2]; auto; [lia|]. split; eapply has_incl; eauto.
      * exists k, previous', c', s', l'. split; [exact E|]. split; [exact HK|]. split; [exact K0|]. split; [lia|].
        split; [exact R'|]. split; [exact A'|]. split; [exact P'|]. split; [exact G'|].
        split; [eapply incl_tran; eauto|exact H'].
Qed.

Lemma down_spec k cnt : boundary k -> forall c s l,
  k + cnt < n -> range weight bins (ssCurrent s) (k + cnt) n c -> Forall good l ->
  exists c' s' l', ordinalDown weight total N minCoverage values bins k cnt c s l = Some (c', s', l') /\
    range weight bins (ssCurrent s') k n c' /\ ssAccumulated s' = ssAccumulated s /\ Forall good l' /\ incl l l' /\
    (forall p v, k <= p < k + cnt -> nth_error values p = Some v -> has (Leq v) l' /\ has (Gr v) l').
Proof.
  intros HK. induction cnt as [|cnt IH]; intros c s l Hn HR HG; cbn [ordinalDown].
  - exists c, s, l. rewrite Nat.add_0_r in HR. split; [reflexivity|].
    split; [exact HR|]. split; [reflexivity|]. split; [exact HG|]. split; [apply incl_refl|]. intros p v Hp. lia.
  - destruct (nth_Some values (k + cnt)) as (cur & Ec); [lia|]. unfold aget. rewrite Ec.
    destruct (nth_Some bins (k + cnt)) as (ids & Eb); [rewrite o_len; lia|]. rewrite Eb, add_all.
    assert (Hc: (majority < cur)%Z).
    { destruct HK as [_ HK]. pose proof (HK _ _ Ec). pose proof (o_ne _ _ Ec). lia. }
    destruct (evaluate_spec examples weight value bins minCoverage o_bins s (k + cnt + 1) n c (Gr cur) (Leq cur) l)
      as (G & I & C1 & C2); auto.
    { replace (k + cnt + 1) with (k + S cnt) by lia. exact HR. }
    { intros j Hj. rewrite Nat.add_1_r. apply o_greater; auto. }
    { intros j Hj. simpl. rewrite Z.leb_antisym. reflexivity. }
    edestruct (IH (c + length (filter weight ids)) (mkSubset (ssCurrent s ++ filter weight ids) (ssAccumulated s))) as
      (c' & s' & l' & E & R' & A' & G' & I' & H').
    * lia.
    * cbn [ssCurrent]. apply range_app' with (b := S (k + cnt)); [apply o_nodup|lia| |].
      -- replace (S (k + cnt)) with (k + S cnt) by lia. exact HR.
      -- apply range_one; [apply o_nodup|exact Eb].
    * exact G.
    * exists c', s', l'. split; [exact E|]. split; [exact R'|]. split; [exact A'|]. split; [exact G'|].
      split; [eapply incl_tran; eauto|]. intros p v Hp Ev. destruct (Nat.eq_dec p (k + cnt)) as [->|Hne].
      -- assert (v = cur) by congruence. subst. split; eapply has_incl; eauto.
      -- apply (H' p v); [lia|exact Ev].
Qed.

Lemma filter_pos ids : (exists i, In i ids /\ weight i = true) -> 0 < length (filter weight ids).
Proof.
  intros (i & Hi & W). assert (H: In i (filter weight ids)) by (apply filter_In; auto).
  destruct (filter weight ids); [contradiction|simpl; lia].
Qed.

Lemma range_lt cur a b c : range weight bins cur a b c ->
  (exists i, In i examples /\ weight i = true /\ ~ stored_between bins a b i) -> c < N.
Proof.
  intros (ND & -> & HI) (i & Hi & W & Hn).
  assert (H: incl (i :: cur) total).
  { intros x [<-|Hx]; [apply filter_In; auto|]. apply HI in Hx. destruct Hx as [Wx Bx]. apply filter_In.
    split; auto. eapply between_examples; eauto. apply o_bins. }
  apply NoDup_incl_length in H; [simpl in H; lia|]. constructor; auto. intros Hc. apply HI in Hc. tauto.
Qed.

Lemma ordinal_search : values <> [] -> outermost weight values bins majority ->
  exists l, searchOrdinal weight total N minCoverage values bins majority = Some l /\ Forall good l /\
    (forall z, separating examples weight value z -> exists v, has (Leq v) l /\ has (Gr v) l /\
       forall i, In i examples -> ((value i <= v)%Z <-> (value i <= z)%Z)).
Proof.
  intros Hne [HF HLs]. unfold searchOrdinal.
  assert (Hn0: 0 < n) by (destruct values; [contradiction|simpl; lia]).
  destruct (nth_Some values 0) as (v0 & E0); [lia|]. unfold aget. rewrite E0.
  destruct (nth_Some values (n - 1)) as (vl & El); [lia|]. rewrite El.
  destruct (nth_Some bins 0) as (b0 & Eb0); [rewrite o_len; lia|]. rewrite Eb0.
  destruct (nth_Some bins (n - 1)) as (bl & Ebl); [rewrite o_len; lia|]. rewrite Ebl.
  (* the values less than the majority value *)
  assert (H1: exists k lastLess numLess s l,
    match (if (v0 <? majority)%Z then Some (addAllToSubset weight b0 emptySubset) else Some (emptySubset, 0)) with
    | Some (s, numCovered) =>
        if 0 <? numCovered then
          let* (i, previous, numCovered, s, l) :=
            ordinalUp weight total N minCoverage values bins majority (n - 1) 1 v0 numCovered s [] in
          Some (i, previous, numCovered, resetSubset s, l)
        else Some (0, v0, numCovered, s, [])
    | None => None
    end = Some (k, lastLess, numLess, s, l) /\
    boundary k /\ ssCurrent s = [] /\ Forall good l /\
    (k = 0 -> numLess = 0) /\
    (0 < k -> exists acc, ssAccumulated s = Some acc /\ range weight bins acc 0 k numLess /\ 0 < numLess /\
       nth_error values (k - 1) = Some lastLess) /\
    (forall p v, p < k - 1 -> nth_error values p = Some v -> has (Leq v) l /\ has (Gr v) l)).
  { destruct (Z.ltb_spec v0 majority) as [Hv|Hv].
    - rewrite add_all. assert (HP: 0 < length (filter weight b0)) by (apply filter_pos; eapply HF; eauto).
      pose proof HP as HP'. apply Nat.ltb_lt in HP'. rewrite HP'.
      edestruct (up_spec (n - 1) 1 v0 (length (filter weight b0))
                   (mkSubset (ssCurrent emptySubset ++ filter weight b0) (ssAccumulated emptySubset)) []) as
        (k & previous' & c' & s' & l' & E & HK & K0 & Hcc & R' & A' & P' & G' & I' & H'); auto; try lia.
      { cbn. apply range_one; [apply o_nodup|exact Eb0]. }
      rewrite E. exists k, previous', c', (resetSubset s'), l'. split; [reflexivity|].
      split; [exact HK|]. split; [reflexivity|]. split; [exact G'|]. split; [lia|]. split; [|exact H'].
      intros _. exists (ssCurrent s'). unfold resetSubset. cbn [ssAccumulated]. rewrite A'. cbn.
      split; [reflexivity|]. split; [exact R'|]. split; [lia|exact P'].
    - exists 0, v0, 0, emptySubset, []. split; [reflexivity|]. split.
      + split; [lia|]. intros p v Ev. split; [|lia]. intros H. assert (v0 <= v)%Z by (eapply o_le; eauto; lia). lia.
      + split; [reflexivity|]. split; [constructor|]. split; [auto|]. split; [lia|]. intros; lia. }
  destruct H1 as (k & lastLess & numLess & s & l & E1 & HK & SC & G1 & KZ & KP & HH1).
  (* the values greater than the majority value *)
  assert (H2: exists c s' l',
    match (if (majority <? vl)%Z then Some (addAllToSubset weight bl s) else Some (s, 0)) with
    | Some (s, numCovered) =>
        if 0 <? numCovered then ordinalDown weight total N minCoverage values bins k (n - 1 - k) numCovered s l
        else Some (numCovered, s, l)
    | None => None
    end = Some (c, s', l') /\
    range weight bins (ssCurrent s') k n c /\ ssAccumulated s' = ssAccumulated s /\ Forall good l' /\ incl l l' /\
    (forall p v, k <= p < n - 1 -> nth_error values p = Some v -> has (Leq v) l' /\ has (Gr v) l')).
  { pose proof HK as [Hkn HKv]. destruct (Z.ltb_spec majority vl) as [Hv|Hv].
    - rewrite add_all. assert (HP: 0 < length (filter weight bl)) by (apply filter_pos; eapply HLs; eauto).
      pose proof HP as HP'. apply Nat.ltb_lt in HP'. rewrite HP'.
      assert (Hkl: k <= n - 1). { pose proof (HKv _ _ El). lia. }
      edestruct (down_spec k (n - 1 - k) HK (length (filter weight bl))
                   (mkSubset (ssCurrent s ++ filter weight bl) (ssAccumulated s)) l) as
        (c' & s' & l' & E & R' & A' & G' & I' & H'); auto; try lia.
      { cbn [ssCurrent]. rewrite SC. cbn [app]. replace (k + (n - 1 - k)) with (n - 1) by lia.
        replace n with (S (n - 1)) at 2 by lia. apply range_one; [apply o_nodup|exact Ebl]. }
      rewrite E. exists c', s', l'. split; [reflexivity|]. split; [exact R'|]. split; [exact A'|].
      split; [exact G'|]. split; [exact I'|]. intros p v Hp. apply H'. lia.
    - assert (k = n). { pose proof (HKv _ _ El). pose proof (o_ne _ _ El). lia. }
      exists 0, s, l. split; [reflexivity|]. rewrite SC. split; [apply range_nil; lia|].
      split; [reflexivity|]. split; [exact G1|]. split; [apply incl_refl|]. intros; lia. }
  destruct H2 as (c & s' & l' & E2 & R2 & A2 & G2 & I2 & HH2).
  destruct (evaluate_spec examples weight value bins minCoverage o_bins s' k n c (Gr majority) (Leq majority) l')
    as (G3 & I3 & C1 & C2); auto.
  { apply o_majority; auto. }
  { intros j Hj. simpl. rewrite Z.leb_antisym. reflexivity. }
  set (l3 := evaluate total N minCoverage s' k n c (Gr majority) (Leq majority) l') in *.
  assert (H4: exists l4,
    (if (0 <? numLess) && (numLess <? N) then
       evaluateAccumulated total N minCoverage s' 0 k numLess (Leq lastLess) (Gr lastLess) l3
     else Some l3) = Some l4 /\ Forall good l4 /\ incl l3 l4 /\
    (0 < numLess -> numLess < N -> has (Leq lastLess) l4 /\ has (Gr lastLess) l4)).
  { destruct (Nat.ltb_spec 0 numLess) as [Hl|Hl]; cbn [andb].
    - destruct (Nat.ltb_spec numLess N) as [HN|HN].
      + destruct KP as (acc & Ea & Ra & _ & En). { destruct k; [specialize (KZ eq_refl); lia|lia]. }
        destruct (evaluate_accumulated_spec examples weight value bins minCoverage o_bins s' acc 0 k numLess
                    (Leq lastLess) (Gr lastLess) l3) as (l4 & E4 & G4 & I4 & D1 & D2); auto.
        { congruence. }
        { intros j Hj. assert (0 < k) by (destruct k; [specialize (KZ eq_refl); lia|lia]).
          replace k with (S (k - 1)) by lia. apply o_less; auto. destruct HK as [_ HK]. apply (HK _ _ En). lia. }
        { intros j Hj. simpl. rewrite Z.ltb_antisym. reflexivity. }
        exists l4. auto.
      + exists l3. split; [reflexivity|]. split; [exact G3|]. split; [apply incl_refl|]. lia.
    - exists l3. split; [reflexivity|]. split; [exact G3|]. split; [apply incl_refl|]. lia. }
  destruct H4 as (l4 & E4 & G4 & I4 & D4).
  exists l4. split; [|split; [exact G4|]].
  { destruct (if (v0 <? majority)%Z then _ else _) as [[s0 c0]|]; [|discriminate E1]. rewrite E1.
    destruct (if (majority <? vl)%Z then _ else _) as [[s1 c1]|]; [|discriminate E2]. rewrite E2. exact E4. }
  intros z ((i & Hi & Wi & Vi) & (j & Hj & Wj & Vj)).
  (* the greatest value that is not greater than z *)
  assert (HV: forall p v, nth_error values p = Some v -> (v <= z)%Z ->
            (forall w, nth_error values (S p) = Some w -> (z < w)%Z) -> ((v < majority)%Z -> (z < majority)%Z) ->
            forall x, In x examples -> ((value x <= v)%Z <-> (value x <= z)%Z)).
  { intros p v Ev Hz Hnext Hm x Hx. split; [lia|]. intros Hxz. destruct (o_cases x Hx) as [(q & Hq & Eq & _)|[Hmx _]].
    - apply (o_le q p _ _ Eq Ev). destruct (le_lt_dec q p); auto.
      destruct (nth_Some values (S p)) as (w & Ew); [lia|]. specialize (Hnext _ Ew).
      assert (w <= value x)%Z by (eapply o_le; eauto). lia.
    - lia. }
  assert (HG: (exists p v, nth_error values p = Some v /\ (v <= z)%Z /\
                 (forall w, nth_error values (S p) = Some w -> (z < w)%Z)) \/
              (forall p v, nth_error values p = Some v -> (z < v)%Z)).
  { assert (HS: forall m, m <= n -> (exists p v, nth_error values p = Some v /\ (v <= z)%Z /\
                 (forall w, nth_error values (S p) = Some w -> S p < m -> (z < w)%Z)) \/
              (forall p v, p < m -> nth_error values p = Some v -> (z < v)%Z)).
    { induction m as [|m IHm]; intros Hm; [right; intros; lia|].
      destruct (nth_Some values m) as (w & Ew); [lia|]. destruct (Z_le_gt_dec w z) as [Hw|Hw].
      - left. exists m, w. repeat split; auto. intros; lia.
      - destruct IHm as [(p & v & Ev & Hv & Hnx)|Hall]; [lia| |].
        + left. exists p, v. repeat split; auto. intros w' Ew' Hm'. destruct (Nat.eq_dec (S p) m) as [Hpm|Hpm].
          * subst m. assert (w' = w) by congruence. lia.
          * apply Hnx; auto. lia.
        + right. intros p v Hp Ev. destruct (Nat.eq_dec p m) as [->|Hpm]; [assert (v = w) by congruence; lia|].
          apply (Hall p v); [lia|exact Ev]. }
    destruct (HS n) as [(p & v & Ev & Hv & Hnx)|Hall]; auto.
    - left. exists p, v. repeat split; auto. intros w Ew. apply Hnx; auto. eapply nth_len; eauto.
    - right. intros p v Ev. apply (Hall p v); [eapply nth_len; eauto|exact Ev]. }
  pose proof HK as [Hkn HKv].
  assert (HM: (majority <= z)%Z -> (forall p v, nth_error values p = Some v -> (v <= z)%Z -> (v < majority)%Z) ->
            exists v, has (Leq v) l4 /\ has (Gr v) l4 /\
              forall x, In x examples -> ((value x <= v)%Z <-> (value x <= z)%Z)).
  { intros Hmz Hall. exists majority. split; [eapply has_incl; eauto|]. split; [eapply has_incl; eauto|].
    intros x Hx. split; [lia|]. intros Hxz. destruct (o_cases x Hx) as [(q & Hq & Eq & _)|[Hmx _]]; [|lia].
    pose proof (Hall _ _ Eq Hxz). lia. }
  destruct HG as [(p & v & Ev & Hv & Hnx)|Hall].
  - destruct (Z.lt_trichotomy v majority) as [Hlt|[Heq|Hgt]]; [|exfalso; eapply o_ne; eauto|].
    + destruct (Z_lt_le_dec z majority) as [Hzm|Hzm].
      * (* v is less than the majority value *)
        exists v. assert (Hpk: p < k) by (apply (HKv _ _ Ev); auto).
        assert (Hx: forall x, In x examples -> ((value x <= v)%Z <-> (value x <= z)%Z)) by (eapply HV; eauto).
        destruct (Nat.eq_dec p (k - 1)) as [Hp|Hp].
        -- destruct KP as (acc & Ea & Ra & Hnl & En); [lia|]. subst p. assert (v = lastLess) by congruence. subst v.
           destruct D4 as [D1 D2]; auto.
           eapply range_lt; eauto. exists j. repeat split; auto. intros HB.
           replace k with (S (k - 1)) in HB by lia. rewrite <- (o_less (k - 1) lastLess) in HB; auto.
           simpl in HB. apply Z.leb_le in HB. lia.
        -- destruct (HH1 p v) as [D1 D2]; auto; [lia|].
           split; [|split; [|exact Hx]]; (eapply has_incl; [|eassumption]); (eapply incl_tran; [|exact I4]); (eapply incl_tran; [|exact I3]); auto.
      * apply HM; auto. intros q w Ew Hw.
        assert (w <= v)%Z; [|lia]. destruct (Z_le_gt_dec w v); auto. exfalso.
        assert (p < q). { destruct (le_lt_dec q p); auto. assert (w <= v)%Z by (eapply o_le; eauto). lia. }
        destruct (nth_Some values (S p)) as (w' & Ew'). { pose proof (nth_len _ _ _ Ew). lia. }
        assert (w' <= w)%Z by (eapply o_le; eauto). pose proof (Hnx _ Ew'). lia.
    + exists v. assert (Hkp: k <= p). { destruct (le_lt_dec k p); auto. exfalso. assert (v < majority)%Z by (eapply HKv; eauto). lia. }
      assert (Hx: forall x, In x examples -> ((value x <= v)%Z <-> (value x <= z)%Z)) by (eapply HV; eauto; lia).
      assert (Hpn: p < n - 1).
      { destruct (o_cases j Hj) as [(q & Hq & Eq & _)|[Hmx _]]; [|lia].
        destruct (le_lt_dec q p); [|lia]. assert (value j <= v)%Z by (eapply o_le; eauto). lia. }
      destruct (HH2 p v) as [D1 D2]; auto.
      split; [|split; [|exact Hx]]; (eapply has_incl; [|eassumption]); (eapply incl_tran; [|exact I4]); exact I3.
  - apply HM.
    + destruct (o_cases i Hi) as [(q & Hq & Eq & _)|[Hmx _]]; [|lia]. pose proof (Hall _ _ Eq). lia.
    + intros p v Ev Hv. pose proof (Hall _ _ Ev). lia.
Qed.

End Ordinal.

Lemma support_ext examples weight value t t' :
  (forall i, In i examples -> holds t (value i) = holds t' (value i)) ->
  support examples weight value t = support examples weight value t'.
Proof.
  intros H. unfold support. f_equal. apply filter_ext_in. intros i Hi. rewrite (H i Hi). reflexivity.
Qed.

Lemma ordinal_exact examples weight value minCoverage values bins majority :
  ordinal_vector examples value values bins majority -> values <> [] -> outermost weight values bins majority ->
  exists l, searchOrdinal weight (filter weight examples) (length (filter weight examples)) minCoverage
              values bins majority = Some l /\
    (forall e, In e l -> exact examples weight value bins e) /\
    (forall z t, t = Leq z \/ t = Gr z -> separating examples weight value z ->
       minCoverage <= support examples weight value t -> considered examples value t l).
Proof.
  intros HO Hne HF. destruct (ordinal_search examples weight value minCoverage values bins majority HO Hne HF) as (l & E & HG & HH).
  exists l. split; [exact E|]. split.
  - rewrite Forall_forall in HG. intros e He. apply HG; auto.
  - intros z t Ht Hz Hs. destruct (HH z Hz) as (v & H1 & H2 & Hv).
    destruct Ht as [-> | ->].
    + assert (HX: forall i, In i examples -> holds (Leq v) (value i) = holds (Leq z) (value i)).
      { intros i Hi. simpl. specialize (Hv i Hi). destruct (Z.leb_spec (value i) v), (Z.leb_spec (value i) z); auto; lia. }
      destruct H1 as (e & He & Et); [rewrite (support_ext _ _ _ _ _ HX); exact Hs|]. exists e. split; auto. rewrite Et. exact HX.
    + assert (HX: forall i, In i examples -> holds (Gr v) (value i) = holds (Gr z) (value i)).
      { intros i Hi. simpl. specialize (Hv i Hi). destruct (Z.ltb_spec v (value i)), (Z.ltb_spec z (value i)); auto; lia. }
      destruct H2 as (e & He & Et); [rewrite (support_ext _ _ _ _ _ HX); exact Hs|]. exists e. split; auto. rewrite Et. exact HX.
Qed.
