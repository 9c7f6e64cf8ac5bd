(** Proofs about equal-width binning. *)
From Coq Require Import ZArith Arith List Bool Sorted Lia.
From Verif Require Import Lib.Arr Model.Search Model.Filter Model.Binning Spec.Search Spec.Binning Proofs.Search
  Proofs.SearchOrdinal Proofs.Filter Proofs.Binning.
Import ListNotations.
Open Scope nat_scope.

Lemma forN_pres {S} (Inv : nat -> S -> Prop) (body : nat -> S -> option S) cnt : forall i st st',
  Inv i st -> (forall j st st1, i <= j < i + cnt -> Inv j st -> body j st = Some st1 -> Inv (Datatypes.S j) st1) ->
  forN cnt i body st = Some st' -> Inv (i + cnt) st'.
Proof.
  induction cnt as [|cnt IH]; intros i st st' H0 Hs; simpl.
  - intros [= <-]. rewrite Nat.add_0_r. exact H0.
  - destruct (body i st) as [st1|] eqn:E; [|discriminate]. intros H. rewrite <- Nat.add_succ_comm.
    apply (IH _ st1); auto.
    + apply (Hs i st); auto. lia.
    + intros j st2 st3 Hj. apply Hs. lia.
Qed.

Lemma forL_pres {A S} (Inv : list A -> S -> Prop) (body : A -> S -> option S) l : forall pre st st',
  Inv pre st -> (forall p a r st st1, pre ++ l = p ++ a :: r -> Inv p st -> body a st = Some st1 -> Inv (p ++ [a]) st1) ->
  forL l body st = Some st' -> Inv (pre ++ l) st'.
Proof.
  induction l as [|a l IH]; intros pre st st' H0 Hs; simpl.
  - intros [= <-]. rewrite app_nil_r. exact H0.
  - destruct (body a st) as [st1|] eqn:E; [|discriminate]. intros H.
    replace (pre ++ a :: l) with ((pre ++ [a]) ++ l) by (rewrite <- app_assoc; reflexivity).
    apply (IH _ st1); auto.
    + apply (Hs pre a l st); auto.
    + intros p b r st2 st3 E2. apply (Hs p b r). rewrite <- E2, <- app_assoc. reflexivity.
Qed.

(** ** The index of a bin *)

Section Index.
Variables (mn mx : Z) (n : nat).

Definition binOf (z : Z) : nat :=
  Nat.min (Z.to_nat ((z - mn) * Z.of_nat n / (mx - mn))) (n - 1).

Lemma getBinIndex_inv z b : getBinIndex z mn mx n = Some b -> b = binOf z /\ (mx <> mn) /\ (0 <= (z - mn) * Z.of_nat n / (mx - mn))%Z.
Proof.
  unfold getBinIndex, binOf. destruct (Z.eqb_spec mx mn) as [|N]; [discriminate|].
  destruct (Z.ltb_spec ((z - mn) * Z.of_nat n / (mx - mn)) 0) as [|H0]; [discriminate|].
  destruct (2 ^ 32 <=? (z - mn) * Z.of_nat n / (mx - mn))%Z; [discriminate|]. cbn [orb]. intros [= <-].
  split; [|auto]. destruct (Nat.leb_spec n (Z.to_nat ((z - mn) * Z.of_nat n / (mx - mn)))); lia.
Qed.

Hypothesis Hm : (mn < mx)%Z.

Lemma binOf_mono a b : (a <= b)%Z -> binOf a <= binOf b.
Proof.
  intros H. unfold binOf.
  assert ((a - mn) * Z.of_nat n / (mx - mn) <= (b - mn) * Z.of_nat n / (mx - mn))%Z.
  { apply Z.div_le_mono; [lia|]. apply Z.mul_le_mono_nonneg_r; lia. }
  lia.
Qed.

Lemma binOf_lt z : 0 < n -> binOf z < n.
Proof. unfold binOf. lia. Qed.

Lemma binOf_bounds z : (mn <= z <= mx)%Z -> 0 < n ->
  (Z.of_nat n * mn + Z.of_nat (binOf z) * (mx - mn) <= Z.of_nat n * z)%Z /\
  (Z.of_nat n * z <= Z.of_nat n * mn + Z.of_nat (binOf z + 1) * (mx - mn))%Z.
Proof.
  intros Hz Hn. unfold binOf. set (q := ((z - mn) * Z.of_nat n / (mx - mn))%Z).
  assert (Hq: (0 <= q)%Z) by (apply Z.div_pos; nia).
  pose proof (Z.div_mod ((z - mn) * Z.of_nat n) (mx - mn) ltac:(lia)) as HD. fold q in HD.
  pose proof (Z.mod_pos_bound ((z - mn) * Z.of_nat n) (mx - mn) ltac:(lia)) as HM.
  destruct (Nat.min_spec (Z.to_nat q) (n - 1)) as [[H1 ->]|[H1 ->]].
  - rewrite Nat2Z.inj_add, Z2Nat.id by lia. nia.
  - assert (Z.of_nat (n - 1) <= q)%Z by lia. replace (Z.of_nat (n - 1 + 1)) with (Z.of_nat n) by lia. nia.
Qed.
End Index.

Lemma minMax_spec v s sparse mn mx : minMax v s sparse = Some (mn, mx) ->
  (mn <= mx)%Z /\ (forall i z, In (i, z) v -> (mn <= z <= mx)%Z) /\ (sparse = true -> (mn <= s <= mx)%Z) /\
  ((exists i, In (i, mn) v) \/ sparse = true /\ s = mn) /\ ((exists i, In (i, mx) v) \/ sparse = true /\ s = mx).
Proof.
  unfold minMax.
  assert (HF: forall l a b, (a <= b)%Z ->
    let '(mn, mx) := fold_left (fun '(mn, mx) (e : nat * Z) =>
          if (snd e <? mn)%Z then (snd e, mx) else if (mx <? snd e)%Z then (mn, snd e) else (mn, mx)) l (a, b) in
    (mn <= a)%Z /\ (b <= mx)%Z /\ (forall i z, In (i, z) l -> (mn <= z <= mx)%Z) /\
    ((exists i, In (i, mn) l) \/ mn = a) /\ ((exists i, In (i, mx) l) \/ mx = b)).
  { induction l as [|[i z] l IH]; intros a b Hab; cbn [fold_left snd].
    { split; [lia|]. split; [lia|]. split; [intros ? ? []|]. auto. }
    assert (HW: forall a' b' m1 m2, (m1 <= a')%Z /\ (b' <= m2)%Z /\ (forall i z, In (i, z) l -> (m1 <= z <= m2)%Z) /\
      ((exists i, In (i, m1) l) \/ m1 = a') /\ ((exists i, In (i, m2) l) \/ m2 = b') ->
      (a' <= a)%Z -> (b <= b')%Z -> (a' <= z <= b')%Z -> (a' = z \/ a' = a) -> (b' = z \/ b' = b) ->
      (m1 <= a)%Z /\ (b <= m2)%Z /\ (forall i0 z0, In (i0, z0) ((i, z) :: l) -> (m1 <= z0 <= m2)%Z) /\
      ((exists i0, In (i0, m1) ((i, z) :: l)) \/ m1 = a) /\ ((exists i0, In (i0, m2) ((i, z) :: l)) \/ m2 = b)).
    { intros a' b' m1 m2 (I1 & I2 & I3 & I4 & I5) Ha Hb Hz Ea Eb. split; [lia|]. split; [lia|]. split; [|split].
      - intros i' z' [[= <- <-]|H]; [lia|eauto].
      - destruct I4 as [[j Hj]|E]; [left; exists j; right; exact Hj|]. destruct Ea as [E'|E']; [|right; congruence].
        left. exists i. left. congruence.
      - destruct I5 as [[j Hj]|E]; [left; exists j; right; exact Hj|]. destruct Eb as [E'|E']; [|right; congruence].
        left. exists i. left. congruence. }
    destruct (Z.ltb_spec z a) as [H1|H1]; [|destruct (Z.ltb_spec b z) as [H2|H2]].
    - specialize (IH z b ltac:(lia)). destruct (fold_left _ l (z, b)) as [m1 m2]. apply (HW _ _ _ _ IH); auto; lia.
    - specialize (IH a z ltac:(lia)). destruct (fold_left _ l (a, z)) as [m1 m2]. apply (HW _ _ _ _ IH); auto; lia.
    - specialize (IH a b ltac:(lia)). destruct (fold_left _ l (a, b)) as [m1 m2]. apply (HW _ _ _ _ IH); auto; lia. }
  destruct sparse.
  - specialize (HF v s s ltac:(lia)). destruct (fold_left _ v (s, s)) as [m1 m2]. intros [= <- <-].
    destruct HF as (I2 & I3 & I4 & I5 & I6). split; [lia|]. split; [exact I4|]. split; [intros _; lia|].
    split; [destruct I5 as [|E]|destruct I6 as [|E]]; auto.
  - destruct v as [|[i z] v']; [discriminate|]. cbn [snd].
    specialize (HF v' z z ltac:(lia)). destruct (fold_left _ v' (z, z)) as [m1 m2]. intros [= <- <-].
    destruct HF as (I2 & I3 & I4 & I5 & I6). split; [lia|]. split; [|split; [discriminate|split]].
    + intros i' z' [[= <- <-]|H]; [lia|eauto].
    + left. destruct I5 as [[j Hj]| ->]; [exists j; right; exact Hj|exists i; left; reflexivity].
    + left. destruct I6 as [[j Hj]| ->]; [exists j; right; exact Hj|exists i; left; reflexivity].
Qed.

(** ** Counting *)

Lemma list_sum_firstn_S cnt (U : list nat) b w : nth_error U b = Some w ->
  list_sum (map cnt (firstn (S b) U)) = list_sum (map cnt (firstn b U)) + cnt w.
Proof.
  revert b; induction U as [|x U IH]; intros b; destruct b; cbn [nth_error]; try discriminate.
  - intros [= ->]. simpl. lia.
  - intros H. specialize (IH _ H). cbn [firstn map list_sum fold_right] in *. unfold list_sum in *. simpl in *. lia.
Qed.

Lemma list_sum_firstn_le cnt (U : list nat) a b : a <= b -> list_sum (map cnt (firstn a U)) <= list_sum (map cnt (firstn b U)).
Proof.
  intros H. induction H as [|b H IH]; auto. destruct (nth_error U b) as [w|] eqn:E.
  - rewrite (list_sum_firstn_S _ _ _ _ E). lia.
  - rewrite (firstn_all2 (n := S b)) by (apply nth_error_None in E; lia). rewrite (firstn_all2 (n := b)) in IH by (apply nth_error_None in E; lia).
    exact IH.
Qed.

Section Width.
Variables (v : list (nat * Z)) (mn mx : Z) (n sb : nat).
Local Notation bi := (binOf mn mx n).

Definition idsOf (w : nat) (l : list (nat * Z)) : list nat := map fst (filter (fun e => bi (snd e) =? w) l).
Definition cnt (l : list (nat * Z)) (w : nat) : nat := if w =? sb then 0 else length (idsOf w l).

Lemma idsOf_app w a b : idsOf w (a ++ b) = idsOf w a ++ idsOf w b.
Proof. unfold idsOf. rewrite filter_app, map_app. reflexivity. Qed.

Lemma idsOf_In w l i : In i (idsOf w l) <-> exists z, In (i, z) l /\ bi z = w.
Proof.
  unfold idsOf. rewrite in_map_iff. split.
  - intros ([i' z] & <- & H). apply filter_In in H. destruct H as [H1 H2]. apply Nat.eqb_eq in H2. eauto.
  - intros (z & H1 & H2). exists (i, z). split; auto. apply filter_In. split; auto. apply Nat.eqb_eq, H2.
Qed.

Lemma cnt_snoc l i z w : cnt (l ++ [(i, z)]) w = if (bi z =? w) && negb (w =? sb) then cnt l w + 1 else cnt l w.
Proof.
  unfold cnt. rewrite idsOf_app, app_length. unfold idsOf at 2. cbn [filter snd].
  destruct (w =? sb), (bi z =? w); simpl; lia.
Qed.

Lemma count_spec counts : countBins mn mx n sb v = Some counts -> 0 < n ->
  length counts = n /\ (forall w, w < n -> nth_error counts w = Some (cnt v w)) /\
  (forall i z, In (i, z) v -> getBinIndex z mn mx n = Some (bi z)).
Proof.
  intros H Hn. unfold countBins in H.
  apply (forL_pres (fun pre counts => length counts = n /\ (forall w, w < n -> nth_error counts w = Some (cnt pre w)) /\
           (forall i z, In (i, z) pre -> getBinIndex z mn mx n = Some (bi z))) _ v []) in H.
  - exact H.
  - split; [apply repeat_length|]. split; [|intros ? ? []]. intros w Hw. unfold cnt, idsOf. simpl.
    rewrite nth_error_repeat by auto. destruct (w =? sb); reflexivity.
  - clear H. intros p [i z] r st st1 _ (H1 & H2 & H3). cbn [snd].
    destruct (getBinIndex z mn mx n) as [b|] eqn:Eb; [|discriminate].
    assert (Hb: b = bi z) by (apply getBinIndex_inv in Eb; apply Eb).
    assert (H3': forall i' z', In (i', z') (p ++ [(i, z)]) -> getBinIndex z' mn mx n = Some (bi z')).
    { intros i' z' Hi. apply in_app_or in Hi. destruct Hi as [Hi|[[= <- <-]|[]]]; [eauto|congruence]. }
    destruct (Nat.eqb_spec b sb) as [E|N].
    + intros [= <-]. split; [exact H1|]. split; [|exact H3']. intros w Hw. rewrite H2, cnt_snoc by auto.
      destruct (Nat.eqb_spec (bi z) w) as [Ew|]; [|reflexivity]. rewrite <- Ew, <- Hb, E, Nat.eqb_refl. reflexivity.
    + destruct (aget st b) as [c|] eqn:Ec; [|discriminate]. intros HS. apply aset_inv in HS as [HL ->].
      rewrite upd_length. split; [exact H1|]. split; [|exact H3']. intros w Hw. rewrite cnt_snoc.
      destruct (Nat.eqb_spec (bi z) w) as [Ew|Nw].
      * rewrite <- Ew, <- Hb, nth_error_upd_eq by auto. destruct (Nat.eqb_spec b sb); [contradiction|]. cbn [negb andb].
        unfold aget in Ec. rewrite H2 in Ec by congruence. congruence.
      * cbn [andb]. rewrite nth_error_upd_neq by congruence. auto.
Qed.

(** ** The bins that are kept *)

Definition used (w : nat) : bool := (w =? sb) || (0 <? cnt v w).
Definition usedTo (i : nat) : list nat := filter used (seq 0 i).

Lemma usedTo_S i : usedTo (S i) = usedTo i ++ (if used i then [i] else []).
Proof. unfold usedTo. rewrite seq_S, filter_app. simpl. destruct (used i); reflexivity. Qed.

Lemma usedTo_length i : length (usedTo i) <= i.
Proof.
  unfold usedTo. rewrite <- (seq_length i 0) at 2. induction (seq 0 i) as [|x l IH]; simpl; auto. destruct (used x); simpl; lia.
Qed.

Lemma usedTo_mono i j : i <= j -> length (usedTo i) <= length (usedTo j).
Proof. intros H. induction H as [|j H IH]; auto. rewrite usedTo_S, app_length. lia. Qed.

Lemma usedTo_prefix i j : i <= j -> firstn (length (usedTo i)) (usedTo j) = usedTo i.
Proof.
  intros H. induction H as [|j H IH]; [apply firstn_all|]. rewrite usedTo_S, firstn_app, IH.
  pose proof (usedTo_mono i j H). replace (length (usedTo i) - length (usedTo j)) with 0 by lia. simpl. apply app_nil_r.
Qed.

(** A used bin is found at the position that equals the number of used bins before. *)
Lemma usedTo_nth w j : w < j -> used w = true -> nth_error (usedTo j) (length (usedTo w)) = Some w.
Proof.
  intros H U. pose proof (usedTo_prefix (S w) j H) as E. rewrite usedTo_S, U in E.
  rewrite <- (nth_firstn _ (length (usedTo w ++ [w]))) by (rewrite app_length; simpl; lia).
  rewrite E, nth_error_app2, Nat.sub_diag by lia. reflexivity.
Qed.

Lemma usedTo_In w j : In w (usedTo j) <-> w < j /\ used w = true.
Proof. unfold usedTo. rewrite filter_In, in_seq. intuition lia. Qed.

Lemma usedTo_rank w j b : nth_error (usedTo j) b = Some w -> w < j /\ used w = true /\ b = length (usedTo w).
Proof.
  intros H. assert (HI: w < j /\ used w = true) by (apply usedTo_In; eapply nth_error_In; eauto).
  destruct HI as [H1 H2]. split; [auto|]. split; [auto|].
  assert (NoDup (usedTo j)) by (apply NoDup_filter, seq_NoDup).
  apply (NoDup_nth_error (usedTo j)); auto; [eapply nth_len; eauto|]. rewrite H, usedTo_nth; auto.
Qed.

Definition sumTo (U : list nat) (b : nat) : nat := list_sum (map (cnt v) (firstn b U)).

Definition Laid (i : nat) (T : nat) (st : ewState) : Prop :=
  let U := usedTo i in
  wBins st = length U /\ wNum st = sumTo U (length U) /\ length (wMapping st) >= i /\
  (forall w, w < i -> used w = true -> nth_error (wMapping st) w = Some (length (usedTo w))) /\
  (forall b, b < length U -> nth_error (aIndptr (wArrays st)) b = Some (sumTo U b)) /\
  (forall b, b < length U ->
     nth_error (aThresholds (wArrays st)) b = Some (Z.of_nat n * mn + Z.of_nat (b + 1) * (mx - mn))%Z) /\
  (sb < i -> wSparse st = length (usedTo sb)) /\ length (aThresholds (wArrays st)) = T.

Lemma sumTo_app U x b : b <= length U -> sumTo (U ++ [x]) b = sumTo U b.
Proof. intros H. unfold sumTo. rewrite firstn_app. replace (b - length U) with 0 by lia. simpl. rewrite app_nil_r. reflexivity. Qed.

Lemma lay_spec counts T i st st1 : i < n -> (forall w, w < n -> nth_error counts w = Some (cnt v w)) ->
  Laid i T st -> layBin mn mx n sb counts i st = Some st1 -> Laid (S i) T st1.
Proof.
  intros Hi Hc (L1 & L2 & L3 & L4 & L5 & L6 & L7 & L8). unfold layBin, aget. rewrite Hc by auto.
  fold (used i). destruct (used i) eqn:U.
  - destruct (aset (aThresholds (wArrays st)) (wBins st) (Z.of_nat n * mn + Z.of_nat (wBins st + 1) * (mx - mn))%Z) as [t|] eqn:Et; [|discriminate].
    destruct (aset (aIndptr (wArrays st)) (wBins st) (wNum st)) as [p|] eqn:Ep; [|discriminate].
    destruct (aset (wMapping st) i (wBins st)) as [m|] eqn:Em; [|discriminate]. intros [= <-].
    apply aset_inv in Et as [Ht ->]. apply aset_inv in Ep as [Hp ->]. apply aset_inv in Em as [Hm' ->].
    unfold Laid. cbn [wBins wNum wMapping wArrays wSparse aIndptr aThresholds]. rewrite usedTo_S, U, app_length, !upd_length.
    cbn [length].
    split; [lia|]. split; [|split; [lia|split; [|split; [|split; [|split]]]]].
    + rewrite L2. rewrite Nat.add_1_r. unfold sumTo at 3. rewrite (list_sum_firstn_S _ _ _ i).
      * fold (sumTo (usedTo i ++ [i]) (length (usedTo i))). rewrite sumTo_app by auto.
        destruct (Nat.eqb_spec i sb) as [E|N]; [|lia]. unfold cnt. rewrite E, Nat.eqb_refl. lia.
      * rewrite nth_error_app2, Nat.sub_diag by lia. reflexivity.
    + intros w Hw Uw. destruct (Nat.eq_dec w i) as [->|N]; [rewrite nth_error_upd_eq by auto; congruence|].
      rewrite nth_error_upd_neq by auto. apply L4; auto. lia.
    + intros b Hb. rewrite sumTo_app by lia. destruct (Nat.eq_dec b (length (usedTo i))) as [->|N].
      * rewrite <- L1, nth_error_upd_eq by auto. rewrite L1, L2. reflexivity.
      * rewrite nth_error_upd_neq by lia. apply L5. lia.
    + intros b Hb. destruct (Nat.eq_dec b (length (usedTo i))) as [->|N].
      * rewrite <- L1, nth_error_upd_eq by auto. reflexivity.
      * rewrite nth_error_upd_neq by lia. apply L6. lia.
    + intros Hs. destruct (Nat.eqb_spec i sb) as [E|N]; [rewrite <- E; exact L1|apply L7; lia].
    + exact L8.
  - destruct (aset (wMapping st) i sb) as [m|] eqn:Em; [|discriminate]. intros [= <-]. apply aset_inv in Em as [Hm' ->].
    unfold Laid. cbn [wBins wNum wMapping wArrays wSparse]. rewrite usedTo_S, U, app_nil_r, upd_length.
    split; [exact L1|]. split; [exact L2|]. split; [lia|]. split; [|split; [exact L5|split; [exact L6|split; [|exact L8]]]].
    + intros w Hw Uw. rewrite nth_error_upd_neq by congruence. apply L4; auto. destruct (Nat.eq_dec w i); [congruence|lia].
    + intros Hs. apply L7. destruct (Nat.eq_dec i sb) as [E|N]; [|lia]. unfold used in U. rewrite E, Nat.eqb_refl in U. discriminate.
Qed.

(** ** Storing the indices *)

Local Notation U := (usedTo n).

Definition Stored (pre : list (nat * Z)) (st : list nat * list nat) : Prop :=
  let (indices, counts) := st in
  length counts = n /\
  (forall w, w < n -> w <> sb -> nth_error counts w = Some (cnt v w - cnt pre w)) /\
  (forall b w, nth_error U b = Some w -> w <> sb ->
     forall j, j < cnt pre w -> nth_error indices (sumTo U b + (cnt v w - 1 - j)) = nth_error (idsOf w pre) j).

Lemma cnt_le pre a r w : v = pre ++ a :: r -> cnt pre w <= cnt v w.
Proof. intros ->. unfold cnt. destruct (w =? sb); auto. rewrite idsOf_app, app_length. lia. Qed.

Lemma cnt_idsOf pre w : w <> sb -> cnt pre w = length (idsOf w pre).
Proof. intros N. unfold cnt. destruct (Nat.eqb_spec w sb); congruence. Qed.

Lemma sumTo_disjoint b b' w w' : nth_error U b = Some w -> nth_error U b' = Some w' -> b < b' -> sumTo U b + cnt v w <= sumTo U b'.
Proof. intros H H' Hlt. unfold sumTo. rewrite <- (list_sum_firstn_S _ _ _ _ H). apply list_sum_firstn_le. lia. Qed.

Lemma store_spec indptr mapping newSparse pre i z r st st1 : v = pre ++ (i, z) :: r -> 0 < n ->
  (forall w, w < n -> used w = true -> nth_error mapping w = Some (length (usedTo w))) ->
  (forall b, b < length U -> nth_error indptr b = Some (sumTo U b)) -> newSparse = length (usedTo sb) -> sb < n ->
  Stored pre st -> storeIndex mn mx n sb indptr mapping newSparse (i, z) st = Some st1 -> Stored (pre ++ [(i, z)]) st1.
Proof.
  intros Ev Hn HM HI Hs Hsb HS. destruct st as [indices counts]. destruct HS as (S1 & S2 & S3). unfold storeIndex, aget. cbn [fst snd].
  destruct (getBinIndex z mn mx n) as [w|] eqn:Ew; [|discriminate].
  assert (Hw: w = bi z) by (apply getBinIndex_inv in Ew; apply Ew).
  assert (Hwn: w < n) by (rewrite Hw; apply binOf_lt; auto).
  assert (Usb: used sb = true) by (unfold used; rewrite Nat.eqb_refl; reflexivity).
  assert (Hsame: w = sb -> Stored (pre ++ [(i, z)]) (indices, counts)).
  { intros E. split; [exact S1|].
    assert (HC: forall w', w' <> sb -> cnt (pre ++ [(i, z)]) w' = cnt pre w' /\ idsOf w' (pre ++ [(i, z)]) = idsOf w' pre).
    { intros w' N. rewrite cnt_snoc, idsOf_app. unfold idsOf at 2. cbn [filter snd].
      destruct (Nat.eqb_spec (bi z) w'); [congruence|]. simpl. rewrite app_nil_r. auto. }
    split.
    - intros w' Hw' N. rewrite (proj1 (HC w' N)). auto.
    - intros b w' Hb N. destruct (HC w' N) as [-> ->]. auto. }
  destruct (Nat.eqb_spec w sb) as [E|N].
  { intros [= <-]. auto. }
  assert (Uw: used w = true).
  { unfold used. assert (0 < cnt v w); [|apply orb_true_iff; right; apply Nat.ltb_lt; auto].
    rewrite cnt_idsOf by auto. assert (Hin: In i (idsOf w v)).
    { apply idsOf_In. exists z. split; auto. rewrite Ev. apply in_or_app. right. left. reflexivity. }
    destruct (idsOf w v); [destruct Hin|simpl; lia]. }
  rewrite HM by auto. pose proof (usedTo_nth w n Hwn Uw) as Eb.
  destruct (Nat.eqb_spec (length (usedTo w)) newSparse) as [E|_].
  { exfalso. apply N. rewrite Hs in E. pose proof (usedTo_nth sb n Hsb Usb) as E2. rewrite <- E in E2. congruence. }
  rewrite S2 by auto. destruct (Nat.eqb_spec (cnt v w - cnt pre w) 0) as [|Npos]; [discriminate|].
  destruct (aset counts w (cnt v w - cnt pre w - 1)) as [counts'|] eqn:Ec; [|discriminate].
  rewrite HI by (eapply nth_len; eauto).
  destruct (aset indices (sumTo U (length (usedTo w)) + (cnt v w - cnt pre w - 1)) i) as [indices'|] eqn:Ei; [|discriminate].
  intros [= <-]. apply aset_inv in Ec as [HLc ->]. apply aset_inv in Ei as [HLi ->].
  assert (HC: forall w', w' <> sb -> cnt (pre ++ [(i, z)]) w' = if w =? w' then cnt pre w' + 1 else cnt pre w').
  { intros w' N'. rewrite cnt_snoc, <- Hw. destruct (Nat.eqb_spec w' sb); [contradiction|]. destruct (w =? w'); reflexivity. }
  assert (HId: forall w', idsOf w' (pre ++ [(i, z)]) = idsOf w' pre ++ (if w =? w' then [i] else [])).
  { intros w'. rewrite idsOf_app. unfold idsOf at 2. cbn [filter snd]. rewrite <- Hw. destruct (w =? w'); reflexivity. }
  split; [rewrite upd_length; exact S1|]. split.
  - intros w' Hw' N'. rewrite HC by auto. destruct (Nat.eqb_spec w w') as [<-|Nw].
    + rewrite nth_error_upd_eq by auto. f_equal. lia.
    + rewrite nth_error_upd_neq by auto. auto.
  - intros b w' Hb N' j Hj. rewrite HC in Hj by auto. rewrite HId. destruct (Nat.eqb_spec w w') as [<-|Nw].
    + assert (Hbe: b = length (usedTo w)) by (apply usedTo_rank in Hb; apply Hb).
      rewrite cnt_idsOf in Hj by auto. destruct (Nat.eq_dec j (cnt pre w)) as [->|Nj].
      * rewrite Hbe. replace (cnt v w - 1 - cnt pre w) with (cnt v w - cnt pre w - 1) by lia.
        rewrite nth_error_upd_eq by auto. rewrite cnt_idsOf, nth_error_app2, Nat.sub_diag by auto. reflexivity.
      * rewrite cnt_idsOf in Nj by auto. rewrite nth_error_upd_neq.
        -- rewrite nth_error_app1 by lia. apply S3; auto. rewrite cnt_idsOf by auto. lia.
        -- rewrite Hbe. assert (cnt pre w = length (idsOf w pre)) by (apply cnt_idsOf; auto). lia.
    + rewrite app_nil_r. rewrite nth_error_upd_neq; [apply S3; auto|].
      assert (Nb: b <> length (usedTo w)) by congruence.
      pose proof (cnt_le pre _ _ w' Ev).
      destruct (Nat.lt_ge_cases b (length (usedTo w))) as [Hlt|Hge].
      * pose proof (sumTo_disjoint _ _ _ _ Hb Eb Hlt). lia.
      * pose proof (sumTo_disjoint _ _ _ _ Eb Hb ltac:(lia)). lia.
Qed.

Definition widthBins : list (list nat) := map (fun w => if w =? sb then [] else rev (idsOf w v)) U.

Lemma nth_rev {A} (l : list A) j : j < length l -> nth_error (rev l) j = nth_error l (length l - 1 - j).
Proof.
  intros H. destruct l as [|d l']; [simpl in H; lia|]. set (l := d :: l') in *.
  rewrite (nth_error_nth' _ d) by (rewrite rev_length; auto). rewrite (nth_error_nth' l d) by lia.
  rewrite rev_nth by auto. f_equal. f_equal. lia.
Qed.

Lemma final_bins indices counts indptr num : Stored v (indices, counts) -> 0 < n ->
  (forall b, b <= length U -> nth_error indptr b = Some (sumTo U b)) -> num = sumTo U (length U) ->
  binsFrom (firstn num indices) indptr (length U) = widthBins.
Proof.
  intros (_ & _ & S3) Hn HI ->. apply list_ext_len; unfold binsFrom, widthBins.
  - rewrite !map_length, seq_length. reflexivity.
  - rewrite map_length, seq_length. intros b Hb. rewrite !nth_error_map.
    assert (Es: nth_error (seq 0 (length U)) b = Some b).
    { rewrite (nth_error_nth' _ 0) by (rewrite seq_length; auto). rewrite seq_nth by auto. reflexivity. }
    rewrite Es. destruct (nth_Some U b Hb) as (w & Eb). rewrite Eb. cbn [option_map]. f_equal.
    rewrite (nth_error_nth _ _ _ (HI b ltac:(lia))), (nth_error_nth _ _ _ (HI (S b) ltac:(lia))).
    assert (ES: sumTo U (S b) = sumTo U b + cnt v w) by (unfold sumTo; apply list_sum_firstn_S; auto).
    assert (Hle: sumTo U (S b) <= sumTo U (length U)) by (apply list_sum_firstn_le; lia).
    rewrite ES in *. destruct (Nat.eqb_spec w sb) as [E|N].
    + unfold cnt. rewrite E, Nat.eqb_refl. unfold slice. rewrite Nat.add_0_r, Nat.sub_diag. reflexivity.
    + assert (Hc: 0 < cnt v w).
      { apply usedTo_rank in Eb. destruct Eb as (_ & Uw & _). unfold used in Uw. apply orb_true_iff in Uw.
        destruct Uw as [Uw|Uw]; [apply Nat.eqb_eq in Uw; contradiction|apply Nat.ltb_lt, Uw]. }
      assert (Hi: sumTo U b + cnt v w <= length indices).
      { pose proof (S3 b w Eb N 0 Hc) as E. destruct (nth_Some (idsOf w v) 0) as (x & Ex); [rewrite <- cnt_idsOf; auto|].
        rewrite Ex in E. apply nth_len in E. lia. }
      apply list_ext_len.
      * rewrite slice_length by (rewrite firstn_length; lia). rewrite rev_length, cnt_idsOf by auto. lia.
      * rewrite slice_length by (rewrite firstn_length; lia). intros j Hj. rewrite slice_nth by lia.
        rewrite nth_firstn by lia. rewrite nth_rev by (rewrite <- cnt_idsOf by auto; lia). rewrite <- cnt_idsOf by auto.
        rewrite <- (S3 b w Eb N) by lia. f_equal. lia.
Qed.

End Width.

Lemma nth_SS {A} (R : A -> A -> Prop) l :
  (forall i j a b, i < j -> nth_error l i = Some a -> nth_error l j = Some b -> R a b) -> StronglySorted R l.
Proof.
  induction l as [|x l IH]; intros H; constructor.
  - apply IH. intros i j a b Hij. apply (H (S i) (S j)). lia.
  - apply Forall_forall. intros y Hy. apply In_nth_error in Hy. destruct Hy as (j & Ej). apply (H 0 (S j)); auto. lia.
Qed.

Lemma NoDup_concat_map {A} (f : A -> list nat) l : NoDup l -> (forall w, In w l -> NoDup (f w)) ->
  (forall w w' x, In x (f w) -> In x (f w') -> w = w') -> NoDup (concat (map f l)).
Proof.
  intros HN H1 H2. induction HN as [|w l Hw HN IH]; simpl; [constructor|]. apply NoDup_app_iff. split; [|split].
  - apply H1. left. reflexivity.
  - apply IH. intros w' Hw'. apply H1. right. exact Hw'.
  - intros x Hx Hx'. apply in_concat in Hx'. destruct Hx' as (ids & E & Hi). apply in_map_iff in E.
    destruct E as (w' & <- & Hw'). rewrite (H2 _ _ _ Hx Hi) in Hw. contradiction.
Qed.

Section Bins.
Variables (v : list (nat * Z)) (mn mx : Z) (n sb : nat).
Hypothesis HN : NoDup (map fst v).

Lemma idsOf_NoDup w : NoDup (idsOf mn mx n w v).
Proof.
  unfold idsOf. revert HN. induction v as [|[i z] l IH]; simpl; auto. intros H. inversion H as [|? ? H1 H2]; subst.
  destruct (binOf mn mx n z =? w); simpl; auto. constructor; auto. intros Hi. apply H1.
  apply in_map_iff in Hi. destruct Hi as (e & E & Hi). apply filter_In in Hi. apply in_map_iff. exists e. tauto.
Qed.

Lemma fst_inj i z z' : In (i, z) v -> In (i, z') v -> z = z'.
Proof.
  revert HN. induction v as [|[j y] l IH]; simpl; [contradiction|]. intros H. inversion H as [|? ? H1 H2]; subst.
  intros [E1|Ha] [E2|Hb]; auto.
  - congruence.
  - injection E1 as -> ->. exfalso. apply H1. apply in_map_iff. exists (i, z'). auto.
  - injection E2 as -> ->. exfalso. apply H1. apply in_map_iff. exists (i, z). auto.
Qed.

Lemma widthBins_NoDup : NoDup (concat (widthBins v mn mx n sb)).
Proof.
  apply NoDup_concat_map.
  - apply NoDup_filter, seq_NoDup.
  - intros w _. destruct (w =? sb); [constructor|]. apply NoDup_rev, idsOf_NoDup.
  - intros w w' x. destruct (w =? sb), (w' =? sb); simpl; try contradiction. rewrite <- !in_rev, !idsOf_In.
    intros (z & H1 & H2) (z' & H3 & H4). rewrite (fst_inj _ _ _ H1 H3) in H2. congruence.
Qed.

End Bins.

Section Results.
Variables (examples : list nat) (value : nat -> Z) (v : list (nat * Z)) (sparseValue : Z) (sparse : bool).
Hypothesis HV : numerical_vector examples value v sparseValue sparse.
Variables (junk : arrays) (junkMapping : list nat) (n : nat) (missing : list nat).

Lemma width_vector vec : equalWidth junk junkMapping n v sparseValue sparse missing = Some vec ->
  (n <= 1 /\ vec = EqualVec) \/
  exists thresholds bins sparseBin bin, vec = BinnedVec thresholds bins sparseBin missing /\
    2 <= length bins < n /\ ordered_bins examples value bins sparseBin bin /\ bin sparseValue = sparseBin /\
    (forall lo hi i j, (forall i, In i examples -> (lo <= value i <= hi)%Z) -> (sparse = true -> (lo <= sparseValue <= hi)%Z) ->
       In i examples -> In j examples -> bin (value i) = bin (value j) -> (Z.of_nat n * (value i - value j) <= hi - lo)%Z) /\
    StronglySorted Z.lt thresholds /\ length bins = S (length thresholds) /\
    (forall i p t, In i examples -> p < bin (value i) -> nth_error thresholds p = Some t ->
       (t <= Z.of_nat n * value i)%Z).
Proof.
  pose proof HV as (N1 & N2 & N3 & N4 & N5 & N6).
  unfold equalWidth. destruct (Nat.ltb_spec 0 n) as [Hn|]; [|intros [= <-]; left; split; [lia|auto]].
  destruct (minMax v sparseValue sparse) as [[mn mx]|] eqn:Em; [|discriminate].
  apply minMax_spec in Em. destruct Em as (M1 & M2 & M3 & M4 & M5).
  destruct (getBinIndex sparseValue mn mx n) as [sb|] eqn:Es; [|discriminate].
  destruct (getBinIndex_inv _ _ _ _ _ Es) as (Hsb & Hne & _).
  assert (Hmm: (mn < mx)%Z) by lia.
  assert (Hsbn: sb < n) by (rewrite Hsb; apply binOf_lt; auto).
  destruct (allocateBins junk n (length v)) as [a|] eqn:Ea; [|discriminate].
  destruct (countBins mn mx n sb v) as [counts|] eqn:Ec; [|discriminate].
  destruct (count_spec _ _ _ _ _ _ Ec Hn) as (C1 & C2 & C3).
  destruct (forN n 0 (layBin mn mx n sb counts) _) as [st|] eqn:El; [|discriminate].
  set (U := usedTo v mn mx n sb n).
  assert (HL: Laid v mn mx n sb (0 + n) (length (aThresholds a)) st).
  { apply (forN_pres (fun i st => Laid v mn mx n sb i (length (aThresholds a)) st)) in El.
    - exact El.
    - unfold Laid. cbn [usedTo seq filter length]. repeat (split; auto; try lia); intros; simpl in *; lia.
    - intros i s s1 Hi Hs E. eapply lay_spec; eauto; lia. }
  destruct HL as (L1 & L2 & L3 & L4 & L5 & L6 & L7 & L8). cbn [Nat.add] in *. fold U in L1, L2, L5, L6.
  destruct (forL v _ _) as [[indices counts']|] eqn:Ef; [|discriminate].
  assert (HS: Stored v mn mx n sb v (indices, counts')).
  { apply (forL_pres (fun pre st => Stored v mn mx n sb pre st) _ v []) in Ef.
    - exact Ef.
    - split; [exact C1|]. split.
      + intros w Hw N. rewrite C2 by auto. f_equal. unfold cnt at 3. cbn. destruct (w =? sb); lia.
      + intros b w _ _ j Hj. exfalso. unfold cnt, idsOf in Hj. simpl in Hj. destruct (w =? sb); lia.
    - intros p [i z] r s s1 Ev Hs E. cbn [app] in Ev. apply (store_spec v mn mx n sb (aIndptr (wArrays st)) (wMapping st) (wSparse st) p i z r s s1); auto. }
  assert (Usb: used v mn mx n sb sb = true) by (unfold used; rewrite Nat.eqb_refl; reflexivity).
  assert (HU: forall i z, In (i, z) v -> used v mn mx n sb (binOf mn mx n z) = true).
  { intros i z Hi. unfold used. destruct (Nat.eqb_spec (binOf mn mx n z) sb) as [|N]; auto. apply Nat.ltb_lt.
    rewrite cnt_idsOf by auto. assert (Hin: In i (idsOf mn mx n (binOf mn mx n z) v)) by (apply idsOf_In; eauto).
    destruct (idsOf _ _ _ _ v); [destruct Hin|simpl; lia]. }
  assert (HE: forall i, In i examples -> In (i, value i) v \/ (sparse = true /\ value i = sparseValue)).
  { intros i Hi. destruct (in_dec Nat.eq_dec i (map fst v)) as [Hm|Hm]; [|auto]. left. apply in_map_iff in Hm.
    destruct Hm as ([i' z] & E & Hin). simpl in E. subst i'. rewrite (N5 _ _ Hin). exact Hin. }
  assert (HUe: forall i, In i examples -> used v mn mx n sb (binOf mn mx n (value i)) = true).
  { intros i Hi. destruct (HE i Hi) as [Hin|[_ E]]; [eapply HU; eauto|]. rewrite E, <- Hsb. exact Usb. }
  assert (HB: forall i, In i examples -> (mn <= value i <= mx)%Z).
  { intros i Hi. destruct (HE i Hi) as [Hin|[Ht E]]; [eapply M2; eauto|]. rewrite E. auto. }
  destruct (Nat.ltb_spec 1 (wBins st)) as [Hw|Hw].
  - intros HR. right. unfold resizeBins in HR. cbn [aThresholds aIndices aIndptr] in HR.
    destruct (aset (firstn (wBins st + 1) (aIndptr (wArrays st))) (wBins st) (wNum st)) as [p|] eqn:Ep; [|discriminate].
    injection HR as <-. apply aset_inv in Ep as [Hp ->].
    assert (HrU: forall w, w < n -> used v mn mx n sb w = true -> length (usedTo v mn mx n sb w) < length U).
    { intros w Hwn Uw. eapply nth_len. apply usedTo_nth; eauto. }
    assert (Hnb: forall b, b <= length U ->
      nth_error (upd (firstn (wBins st + 1) (aIndptr (wArrays st))) (wBins st) (wNum st)) b = Some (sumTo v mn mx n sb U b)).
    { intros b Hb. destruct (Nat.eq_dec b (length U)) as [->|N].
      - rewrite <- L1, nth_error_upd_eq by auto. rewrite L1, L2. reflexivity.
      - rewrite nth_error_upd_neq by lia. rewrite nth_firstn by lia. apply L5. lia. }
    assert (HF: binsFrom (firstn (wNum st) indices) (upd (firstn (wBins st + 1) (aIndptr (wArrays st))) (wBins st) (wNum st)) (wBins st) =
              widthBins v mn mx n sb).
    { rewrite L1 at 3. apply (final_bins v mn mx n sb indices counts'); auto. }
    rewrite HF. rewrite (L7 Hsbn). assert (Hsl: length (usedTo v mn mx n sb sb) < wBins st) by (rewrite L1; apply HrU; auto).
    destruct (Nat.leb_spec (wBins st) (length (usedTo v mn mx n sb sb))) as [|_]; [lia|].
    assert (HWl: length (widthBins v mn mx n sb) = length U) by (apply map_length).
    assert (HUt: length U <= length (aThresholds (wArrays st))).
    { destruct (Nat.le_gt_cases (length U) (length (aThresholds (wArrays st)))) as [|Hgt]; auto.
      specialize (L6 _ Hgt). apply nth_len in L6. lia. }
    eexists. exists (widthBins v mn mx n sb), (length (usedTo v mn mx n sb sb)), (fun z => length (usedTo v mn mx n sb (binOf mn mx n z))).
    split; [reflexivity|]. rewrite HWl. split.
    { split; [lia|]. apply allocate_dims in Ea. destruct Ea as [(D1 & D2 & D3)|]; [|lia]. rewrite L8 in HUt. lia. }
    split; [|split; [rewrite <- Hsb; reflexivity|split; [|split; [|split]]]].
    + split; [apply widthBins_NoDup; auto|]. rewrite HWl. split; [lia|]. split; [|split].
      * intros x y Hxy. apply usedTo_mono, binOf_mono; auto.
      * intros i Hi. apply HrU; [apply binOf_lt; auto|auto].
      * intros i b ids Eb. unfold widthBins in Eb. rewrite nth_error_map in Eb.
        destruct (nth_error (usedTo v mn mx n sb n) b) as [w|] eqn:Ew; [|discriminate]. injection Eb as <-.
        destruct (usedTo_rank _ _ _ _ _ _ _ _ Ew) as (Hwn & Uw & ->).
        assert (Hinj: forall w', w' < n -> used v mn mx n sb w' = true ->
                  length (usedTo v mn mx n sb w') = length (usedTo v mn mx n sb w) -> w' = w).
        { intros w' H1 H2 H3. pose proof (usedTo_nth v mn mx n sb w' n H1 H2) as E. rewrite H3 in E. congruence. }
        destruct (Nat.eqb_spec w sb) as [->|N].
        -- split; [intros []|]. intros (_ & _ & H). congruence.
        -- rewrite <- in_rev, idsOf_In. split.
           ++ intros (z & Hz & Ez). rewrite (N5 _ _ Hz), Ez. split; [apply N3, in_map_iff; exists (i, z); auto|].
              split; auto. intros E. apply N. symmetry. apply Hinj; auto.
           ++ intros (Hi & Hb & Hs). pose proof (Hinj _ (binOf_lt mn mx n (value i) Hn) (HUe i Hi) Hb) as E.
              exists (value i). split; auto. destruct (HE i Hi) as [|[_ Ev]]; auto. exfalso. apply Hs. rewrite <- Hb, Ev, <- Hsb. reflexivity.
    + intros lo hi i j Hlh Hsp Hi Hj Hb.
      assert (E: binOf mn mx n (value i) = binOf mn mx n (value j)).
      { pose proof (usedTo_nth v mn mx n sb _ n (binOf_lt mn mx n (value i) Hn) (HUe i Hi)) as E1.
        pose proof (usedTo_nth v mn mx n sb _ n (binOf_lt mn mx n (value j) Hn) (HUe j Hj)) as E2. rewrite Hb in E1. congruence. }
      destruct (binOf_bounds mn mx n Hmm (value i) (HB i Hi) Hn) as [_ B1].
      destruct (binOf_bounds mn mx n Hmm (value j) (HB j Hj) Hn) as [B2 _]. rewrite E in B1.
      assert (lo <= mn)%Z.
      { destruct M4 as [[x Hx]|[Hs <-]]; [|apply Hsp; auto]. rewrite <- (N5 _ _ Hx). apply Hlh, N3, in_map_iff. exists (x, mn). auto. }
      assert (mx <= hi)%Z.
      { destruct M5 as [[x Hx]|[Hs <-]]; [|apply Hsp; auto]. rewrite <- (N5 _ _ Hx). apply Hlh, N3, in_map_iff. exists (x, mx). auto. }
      nia.
    + apply nth_SS. intros b c x y Hbc Eb Ey.
      assert (Hc: c < wBins st - 1) by (apply nth_len in Ey; rewrite firstn_length in Ey; lia).
      rewrite nth_firstn in Eb, Ey by lia. rewrite L6 in Eb by lia. rewrite L6 in Ey by lia. injection Eb as <-. injection Ey as <-. nia.
    + rewrite firstn_length. lia.
    + intros i b t Hi Hb Eb. assert (Hc: b < wBins st - 1) by (apply nth_len in Eb; rewrite firstn_length in Eb; lia).
      rewrite nth_firstn, L6 in Eb by lia. injection Eb as <-.
      destruct (binOf_bounds mn mx n Hmm (value i) (HB i Hi) Hn) as [B1 _].
      pose proof (usedTo_length v mn mx n sb (binOf mn mx n (value i))). nia.
  - intros [= <-]. left. split; [|reflexivity].
    assert (HR: forall w w', w < n -> used v mn mx n sb w = true -> w' < n -> used v mn mx n sb w' = true -> w = w').
    { intros w w' H1 H2 H3 H4. pose proof (usedTo_nth v mn mx n sb w n H1 H2) as E1.
      pose proof (usedTo_nth v mn mx n sb w' n H3 H4) as E2. fold U in E1, E2.
      pose proof (nth_len _ _ _ E1). pose proof (nth_len _ _ _ E2). rewrite L1 in Hw.
      replace (length (usedTo v mn mx n sb w')) with (length (usedTo v mn mx n sb w)) in E2 by lia. congruence. }
    assert (E0: binOf mn mx n mn = 0).
    { unfold binOf. rewrite Z.sub_diag, Z.mul_0_l, Z.div_0_l by lia. reflexivity. }
    assert (E1: binOf mn mx n mx = n - 1).
    { unfold binOf. rewrite Z.mul_comm, Z.div_mul by lia. lia. }
    assert (U0: used v mn mx n sb (binOf mn mx n mn) = true).
    { destruct M4 as [[x Hx]|[_ <-]]; [eapply HU; eauto|]. rewrite <- Hsb. exact Usb. }
    assert (U1: used v mn mx n sb (binOf mn mx n mx) = true).
    { destruct M5 as [[x Hx]|[_ <-]]; [eapply HU; eauto|]. rewrite <- Hsb. exact Usb. }
    rewrite E0 in U0. rewrite E1 in U1. specialize (HR 0 (n - 1) Hn U0 ltac:(lia) U1). lia.
Qed.
End Results.

(** ** Absence of undefined behaviour *)

Lemma forL_total {A S} (Inv : list A -> S -> Prop) (body : A -> S -> option S) l : forall pre st,
  Inv pre st -> (forall p a r st, pre ++ l = p ++ a :: r -> Inv p st -> exists st1, body a st = Some st1 /\ Inv (p ++ [a]) st1) ->
  exists st', forL l body st = Some st' /\ Inv (pre ++ l) st'.
Proof.
  induction l as [|a l IH]; intros pre st H0 Hs; simpl.
  - exists st. rewrite app_nil_r. auto.
  - destruct (Hs pre a l st eq_refl H0) as (st1 & -> & H1).
    replace (pre ++ a :: l) with ((pre ++ [a]) ++ l) by (rewrite <- app_assoc; reflexivity).
    apply IH; auto. intros p b r st2 E2. apply (Hs p b r). rewrite <- E2, <- app_assoc. reflexivity.
Qed.

Lemma getBinIndex_total mn mx n z : (mn < mx)%Z -> (mn <= z <= mx)%Z -> (Z.of_nat n < 2 ^ 32)%Z ->
  getBinIndex z mn mx n = Some (binOf mn mx n z).
Proof.
  intros Hm Hz Hn. unfold getBinIndex, binOf. destruct (Z.eqb_spec mx mn) as [|N]; [lia|].
  set (q := ((z - mn) * Z.of_nat n / (mx - mn))%Z).
  assert (0 <= q)%Z by (apply Z.div_pos; nia).
  assert (q <= Z.of_nat n)%Z by (unfold q; apply Z.div_le_upper_bound; nia).
  destruct (Z.ltb_spec q 0); [lia|]. destruct (Z.leb_spec (2 ^ 32) q); [lia|]. cbn [orb]. f_equal.
  destruct (Nat.leb_spec n (Z.to_nat q)); lia.
Qed.

Lemma cnt_sum mn mx n sb (ws : list nat) l : NoDup ws -> list_sum (map (cnt mn mx n sb l) ws) <= length l.
Proof.
  intros HN. induction l as [|[i z] l IH] using rev_ind.
  - assert (E : forall w, cnt mn mx n sb [] w = 0) by (intros w; unfold cnt, idsOf; simpl; destruct (w =? sb); auto).
    induction ws; simpl; auto. rewrite E. apply IHws. inversion HN; auto.
  - rewrite app_length. simpl.
    assert (G : forall ws, NoDup ws -> list_sum (map (cnt mn mx n sb (l ++ [(i, z)])) ws) <= list_sum (map (cnt mn mx n sb l) ws) + 1 /\
      (~ In (binOf mn mx n z) ws -> list_sum (map (cnt mn mx n sb (l ++ [(i, z)])) ws) = list_sum (map (cnt mn mx n sb l) ws))).
    { clear. intros ws. induction ws as [|w ws IH]; intros HN; [split; simpl; auto|].
      inversion HN; subst. destruct (IH H2) as (I1 & I2).
      change (list_sum (map (cnt mn mx n sb (l ++ [(i, z)])) (w :: ws))) with (cnt mn mx n sb (l ++ [(i, z)]) w + list_sum (map (cnt mn mx n sb (l ++ [(i, z)])) ws)).
      change (list_sum (map (cnt mn mx n sb l) (w :: ws))) with (cnt mn mx n sb l w + list_sum (map (cnt mn mx n sb l) ws)).
      rewrite cnt_snoc. destruct (Nat.eqb_spec (binOf mn mx n z) w) as [E|N].
      - subst w. rewrite (I2 H1). split; [destruct (negb _); simpl; lia|intros HC; exfalso; apply HC; left; auto].
      - simpl. split; [lia|]. intros HC. rewrite I2; [auto|]. intros HI. apply HC. right. auto. }
    destruct (G ws HN) as (G1 & _). lia.
Qed.

Lemma width_safe :
  forall (examples : list nat) (value : nat -> Z) (v : list (nat * Z)) (sparseValue : Z) (sparse : bool),
    numerical_vector examples value v sparseValue sparse ->
    forall (junk : arrays) (junkMapping : list nat) (numWidths : nat) (missing : list nat) (lo hi : Z) (w : nat),
    allocated junk numWidths (length v) -> numWidths <= length junkMapping -> (Z.of_nat numWidths < 2 ^ 32)%Z ->
    (lo < hi)%Z -> (forall i, In i examples -> (lo <= value i <= hi)%Z) -> (lo <= sparseValue <= hi)%Z ->
    (exists i, In i examples /\ value i = lo) \/ sparse = true /\ sparseValue = lo ->
    (exists i, In i examples /\ value i = hi) \/ sparse = true /\ sparseValue = hi ->
    w < numWidths ->
    (forall z, z = sparseValue \/ (exists i, In i examples /\ value i = z) ->
       ~ (Z.of_nat numWidths * lo + Z.of_nat w * (hi - lo) <= Z.of_nat numWidths * z <= Z.of_nat numWidths * lo + Z.of_nat (w + 1) * (hi - lo))%Z) ->
    exists vec, equalWidth junk junkMapping numWidths v sparseValue sparse missing = Some vec.
Proof.
  intros examples value v sparseValue sparse HV junk junkMapping n missing lo hi w0 (A1 & A2 & A3) HJ H32 Hlh HR HS HLo HHi Hw HE.
  pose proof HV as (N1 & N2 & N3 & N4 & N5 & N6).
  unfold equalWidth. destruct (Nat.ltb_spec 0 n) as [Hn|]; [|eauto].
  assert (HX: forall i, In i examples -> In (i, value i) v \/ (sparse = true /\ value i = sparseValue)).
  { intros i Hi. destruct (in_dec Nat.eq_dec i (map fst v)) as [Hm|Hm]; [|auto]. left. apply in_map_iff in Hm.
    destruct Hm as ([i' z] & E & Hin). simpl in E. subst i'. rewrite (N5 _ _ Hin). exact Hin. }
  assert (HVr : forall i z, In (i, z) v -> In i examples /\ value i = z).
  { intros i z Hi. split; [apply N3, in_map_iff; exists (i, z); auto|auto]. }
  destruct (minMax v sparseValue sparse) as [[mn mx]|] eqn:Em.
  2:{ exfalso. unfold minMax in Em. destruct sparse; [discriminate|]. destruct v as [|e v']; [|discriminate].
      destruct HLo as [(i & Hi & _)|[]]; [|discriminate]. destruct (HX i Hi) as [[]|[]]; discriminate. }
  apply minMax_spec in Em. destruct Em as (M1 & M2 & M3 & M4 & M5).
  assert (mn = lo).
  { apply Z.le_antisymm.
    - destruct HLo as [(i & Hi & <-)|(Hs & <-)]; [|apply M3; auto]. destruct (HX i Hi) as [Hv|(Hs & ->)]; [eapply M2; eauto|apply M3; auto].
    - destruct M4 as [(i & Hi)|(_ & <-)]; [|lia]. apply HVr in Hi. destruct Hi as (Hi & <-). apply HR; auto. }
  assert (mx = hi).
  { apply Z.le_antisymm.
    - destruct M5 as [(i & Hi)|(_ & <-)]; [|lia]. apply HVr in Hi. destruct Hi as (Hi & <-). apply HR; auto.
    - destruct HHi as [(i & Hi & <-)|(Hs & <-)]; [|apply M3; auto]. destruct (HX i Hi) as [Hv|(Hs & ->)]; [eapply M2; eauto|apply M3; auto]. }
  subst mn mx. rewrite (getBinIndex_total lo hi n sparseValue) by auto. set (sb := binOf lo hi n sparseValue).
  assert (Hsbn: sb < n) by (apply binOf_lt; auto).
  assert (HG : forall i z, In (i, z) v -> getBinIndex z lo hi n = Some (binOf lo hi n z)) by (intros i z Hi; apply getBinIndex_total; eauto).
  assert (HU0 : used v lo hi n sb w0 = false).
  { unfold used. destruct (Nat.eqb_spec w0 sb) as [E|N]; simpl.
    - exfalso. apply (HE sparseValue); [auto|]. rewrite E. unfold sb. apply binOf_bounds; auto.
    - apply Nat.ltb_ge. unfold cnt. destruct (w0 =? sb); auto. destruct (idsOf lo hi n w0 v) as [|i l] eqn:El; auto.
      exfalso. assert (Hi : In i (idsOf lo hi n w0 v)) by (rewrite El; left; auto). apply idsOf_In in Hi. destruct Hi as (z & Hi & Ez).
      destruct (HVr _ _ Hi) as (He & Hz). apply (HE z); [right; eauto|]. rewrite <- Ez. apply binOf_bounds; auto. eauto. }
  assert (HUn : length (usedTo v lo hi n sb n) <= n - 1).
  { assert (X : NoDup (w0 :: usedTo v lo hi n sb n)).
    { constructor; [|apply NoDup_filter, seq_NoDup]. rewrite usedTo_In. intros (_ & H). congruence. }
    assert (Y : incl (w0 :: usedTo v lo hi n sb n) (seq 0 n)).
    { intros x [<-|Hx]; apply in_seq; [lia|]. apply usedTo_In in Hx. lia. }
    pose proof (NoDup_incl_length X Y) as Z. rewrite seq_length in Z. simpl in Z. lia. }
  unfold allocateBins. rewrite aset_Some by (rewrite firstn_length; lia). rewrite aset_Some by (rewrite upd_length, firstn_length; lia).
  cbv beta iota.
  match goal with |- context[mkEw ?a _ _ _ _] => set (a0 := a) end.
  assert (Dt : length (aThresholds a0) = n - 1) by (unfold a0; simpl; rewrite firstn_length; lia).
  assert (Di : length (aIndices a0) = length v) by (unfold a0; simpl; rewrite firstn_length; lia).
  assert (Dp : length (aIndptr a0) = n + 1) by (unfold a0; cbn [aIndptr]; rewrite !upd_length, firstn_length; lia).
  assert (HC : exists counts, countBins lo hi n sb v = Some counts).
  { unfold countBins. destruct (forL_total (fun pre (counts : list nat) => length counts = n) (fun e counts =>
      let* b := getBinIndex (snd e) lo hi n in if b =? sb then Some counts else let* c := aget counts b in aset counts b (c + 1)) v [] (repeat 0 n))
      as (counts & E & _).
    - apply repeat_length.
    - intros p [i z] r st Ev L. cbn [snd]. rewrite (HG i z) by (simpl in Ev; rewrite Ev; apply in_or_app; right; left; auto).
      destruct (_ =? sb); [eauto|]. assert (binOf lo hi n z < n) by (apply binOf_lt; auto).
      destruct (nth_Some st (binOf lo hi n z)) as (c & Ec); [lia|]. unfold aget. rewrite Ec. rewrite aset_Some by lia. eexists. split; [reflexivity|].
      rewrite upd_length. auto.
    - exists counts. exact E. }
  destruct HC as (counts & Ec). rewrite Ec. destruct (count_spec _ _ _ _ _ _ Ec Hn) as (C1 & C2 & C3).
  match goal with |- context[forN ?c ?s ?f ?z] => destruct (forN_inv (fun i (st : ewState) => Laid v lo hi n sb i (n - 1) st /\
    length (wMapping st) = n /\ length (aIndptr (wArrays st)) = n + 1 /\ length (aIndices (wArrays st)) = length v) f c s z) as (st & El & HL & Lm & Lp & Li) end.
  { split; [|cbn [wMapping wArrays]; rewrite firstn_length; split; [lia|auto]].
    unfold Laid. cbn [usedTo seq filter length]. repeat (split; auto; try lia); intros; simpl in *; lia. }
  { intros i st Hi (HL & Lm & Lp & Li).
    assert (HT : exists st1, layBin lo hi n sb counts i st = Some st1 /\ length (wMapping st1) = n /\ length (aIndptr (wArrays st1)) = n + 1 /\
      length (aIndices (wArrays st1)) = length v).
    { pose proof HL as (L1 & _ & _ & _ & _ & _ & _ & L8). unfold layBin, aget. rewrite C2 by lia. fold (used v lo hi n sb i).
      destruct (used v lo hi n sb i) eqn:U.
      - assert (length (usedTo v lo hi n sb i) + 1 <= n - 1).
        { pose proof (usedTo_mono v lo hi n sb (S i) n ltac:(lia)) as X. rewrite usedTo_S, U, app_length in X. simpl in X. lia. }
        rewrite !aset_Some by lia. eexists. split; [reflexivity|]. cbn [wMapping wArrays aIndptr aIndices]. rewrite !upd_length. auto.
      - rewrite aset_Some by lia. eexists. split; [reflexivity|]. cbn [wMapping wArrays aIndptr aIndices]. rewrite !upd_length. auto. }
    destruct HT as (st1 & E & T). exists st1. split; auto. split; auto. eapply lay_spec; eauto. lia. }
  rewrite El. destruct HL as (L1 & L2 & L3 & L4 & L5 & L6 & L7 & L8). cbn [Nat.add] in *.
  assert (HST : forall wx bx, nth_error (usedTo v lo hi n sb n) bx = Some wx -> sumTo v lo hi n sb (usedTo v lo hi n sb n) bx + cnt lo hi n sb v wx <= length v).
  { intros wx bx E. unfold sumTo. rewrite <- (list_sum_firstn_S _ _ _ _ E).
    transitivity (list_sum (map (cnt lo hi n sb v) (firstn (length (usedTo v lo hi n sb n)) (usedTo v lo hi n sb n)))).
    - apply list_sum_firstn_le. apply nth_len in E. lia.
    - rewrite firstn_all. apply cnt_sum. apply NoDup_filter, seq_NoDup. }
  match goal with |- context[forL ?l ?f ?z] => destruct (forL_total (fun pre (st : list nat * list nat) => Stored v lo hi n sb pre st /\
    length (fst st) = length v) f l [] z) as ((indices, counts') & Ef & _) end.
  { split; [|exact Li]. split; [exact C1|]. split.
    - intros w Hwn N. rewrite C2 by auto. f_equal. unfold cnt at 3. cbn. destruct (w =? sb); lia.
    - intros b w _ _ j Hj. exfalso. unfold cnt, idsOf in Hj. simpl in Hj. destruct (w =? sb); lia. }
  { intros p [i z] r [ids cs] Ev (HSt & Lf). cbn [app fst] in *.
    assert (Hiv : In (i, z) v) by (rewrite Ev; apply in_or_app; right; left; auto).
    assert (HT : exists st1, storeIndex lo hi n sb (aIndptr (wArrays st)) (wMapping st) (wSparse st) (i, z) (ids, cs) = Some st1 /\ length (fst st1) = length v).
    { destruct HSt as (S1 & S2 & S3). unfold storeIndex. cbn [fst snd]. rewrite (HG i z) by auto.
      destruct (Nat.eqb_spec (binOf lo hi n z) sb) as [|N]; [eexists; split; [reflexivity|auto]|].
      assert (Hwn: binOf lo hi n z < n) by (apply binOf_lt; auto).
      assert (Hp : cnt lo hi n sb p (binOf lo hi n z) + 1 <= cnt lo hi n sb v (binOf lo hi n z)).
      { rewrite !cnt_idsOf by auto. rewrite Ev, idsOf_app, app_length. unfold idsOf at 3. cbn [filter snd]. rewrite Nat.eqb_refl. simpl. lia. }
      assert (Uw : used v lo hi n sb (binOf lo hi n z) = true) by (unfold used; apply orb_true_iff; right; apply Nat.ltb_lt; lia).
      unfold aget. rewrite L4 by auto. destruct (_ =? wSparse st); [eexists; split; [reflexivity|auto]|].
      rewrite S2 by auto. destruct (Nat.eqb_spec (cnt lo hi n sb v (binOf lo hi n z) - cnt lo hi n sb p (binOf lo hi n z)) 0); [lia|].
      rewrite aset_Some by lia. pose proof (usedTo_nth v lo hi n sb _ n Hwn Uw) as Eb. rewrite L5 by (eapply nth_len; eauto).
      pose proof (HST _ _ Eb). rewrite aset_Some by lia. eexists. split; [reflexivity|]. cbn [fst]. rewrite upd_length. auto. }
    destruct HT as (st1 & E & T). exists st1. split; auto. split; auto.
    apply (store_spec v lo hi n sb (aIndptr (wArrays st)) (wMapping st) (wSparse st) p i z r (ids, cs) st1); auto. }
  rewrite Ef. destruct (Nat.ltb_spec 1 (wBins st)) as [Hb|Hb]; [|eauto].
  unfold resizeBins. cbn [aThresholds aIndices aIndptr]. rewrite aset_Some by (rewrite firstn_length; lia). eauto.
Qed.
