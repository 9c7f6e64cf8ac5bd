From Coq Require Import NArith Arith List Bool ZArith QArith Qround Lia Permutation.
From Verif Require Import Lib.Arr Model.Rng Model.Sampling Model.Stratified Spec.Stratified Proofs.Rng Proofs.Sampling.
Import ListNotations.
Open Scope nat_scope.

Lemma tiebreak_ok a b s : valid s -> exists up s', tiebreak a b s = Some (up, s') /\ valid s'.
Proof.
  intros V. unfold tiebreak. destruct (b <? a)%N; [eauto|]. destruct (a <? b)%N; [eauto|].
  unfold randomBool. destruct (randomInt32_ok s 0 2 V) as (r & s' & E & H); [split; reflexivity|].
  rewrite E. eexists _, _. split; [reflexivity|]. tauto.
Qed.

Lemma roundShare_le q n up : (0 <= q)%Q -> (q <= 1)%Q -> roundShare q n up <= n.
Proof.
  intros H0 H1. unfold roundShare.
  assert (X : (q * inject_Z (Z.of_nat n) <= inject_Z (Z.of_nat n))%Q).
  { rewrite <- (Qmult_1_l (inject_Z (Z.of_nat n))) at 2.
    apply Qmult_le_compat_r; auto. change 0%Q with (inject_Z 0). rewrite <- Zle_Qle. lia. }
  destruct up.
  - pose proof (Qceiling_resp_le _ _ X) as Y. rewrite Qceiling_Z in Y. lia.
  - pose proof (Qfloor_resp_le _ _ X) as Y. rewrite Qfloor_Z in Y. lia.
Qed.

(** The effect of one swap of the shuffle. *)
Lemma swap_nth (st : list nat) i r x y p : i <= r -> nth_error st r = Some x -> nth_error st i = Some y ->
  p <= i -> nth_error (upd (upd st r y) i x) p = if p =? i then Some x else nth_error st p.
Proof.
  intros H Hr Hi Hp. assert (i < length st) by (apply nth_error_Some; congruence).
  destruct (Nat.eqb_spec p i).
  - subst. apply nth_error_upd_eq. rewrite upd_length. auto.
  - rewrite !nth_error_upd_neq by lia. auto.
Qed.

(** State of the weights after the first [j] positions of the stratum have been handled. *)
Definition dw_inv (w0 : list bool) (m j : nat) (st : list nat) (w : list bool) : Prop :=
  length w = length w0 /\
  (forall p e, p < j -> nth_error st p = Some e -> nth_error w e = Some (p <? m)) /\
  (forall k, (forall p, p < j -> nth_error st p <> Some k) -> nth_error w k = nth_error w0 k).

Lemma drawWeights_ok stratum m w0 s :
  NoDup stratum -> (forall i, In i stratum -> i < length w0) -> m <= length stratum ->
  (N.of_nat (length stratum) < 2 ^ 32)%N -> valid s ->
  exists st w s', drawWeights stratum m w0 s = Some (st, w, s') /\
    Permutation stratum st /\ valid s' /\ dw_inv w0 m (length st) st w.
Proof.
  intros ND HB Hm HN V. unfold drawWeights.
  match goal with |- context [forN m 0 ?f ?x] =>
    destruct (forN_inv (fun i '(st, w, s) => Permutation stratum st /\ valid s /\ dw_inv w0 m i st w) f m 0 x)
      as (((st & w) & s1) & E1 & P1 & V1 & D1)
  end.
  - split; auto. split; auto. repeat split; auto; intros; lia.
  - intros i ((st & w) & s1) Hi (P1 & V1 & D1 & D2 & D3).
    pose proof (Permutation_length P1) as L1.
    destruct (randomInt_ok s1 i (length stratum) V1) as (r & s2 & Er & Hr & V2); [lia|lia|].
    rewrite Er. destruct (aget_Some st r ltac:(lia)) as (x & Ex). rewrite Ex.
    destruct (aget_Some st i ltac:(lia)) as (y & Ey). rewrite Ey. unfold aget in *.
    rewrite aset_Some by lia. rewrite aset_Some by (rewrite upd_length; lia).
    assert (Hx : x < length w).
    { rewrite D1. apply HB. apply nth_error_In in Ex. eapply Permutation_in; [apply Permutation_sym; eauto|auto]. }
    rewrite aset_Some by auto. eexists; split; [reflexivity|]. cbv beta iota.
    split; [etransitivity; [exact P1|apply swap_perm; auto]|]. split; auto.
    split; [rewrite upd_length; auto|]. split.
    + intros p e Hp He. rewrite swap_nth in He by (auto; lia).
      destruct (Nat.ltb_spec p m); [|lia].
      destruct (Nat.eqb_spec p i).
      * assert (x = e) by congruence. subst e. apply nth_error_upd_eq. auto.
      * destruct (Nat.eq_dec x e); [subst; apply nth_error_upd_eq; auto|].
        rewrite nth_error_upd_neq by auto. rewrite (D2 p e) by (auto; lia).
        destruct (Nat.ltb_spec p m); auto. lia.
    + intros k Hk. assert (x <> k).
      { intros ->. apply (Hk i); [lia|]. rewrite swap_nth by (auto; lia). rewrite Nat.eqb_refl. auto. }
      rewrite nth_error_upd_neq by auto. apply D3. intros p Hp He. apply (Hk p); [lia|].
      rewrite swap_nth by (auto; lia). destruct (Nat.eqb_spec p i); [lia|auto].
  - rewrite E1. simpl in D1.
    assert (NDs : NoDup st) by (eapply Permutation_NoDup; eauto).
    pose proof (Permutation_length P1) as L1.
    match goal with |- context [forN ?c m ?f w] =>
      destruct (forN_inv (fun j w => dw_inv w0 m j st w) f c m w) as (w2 & E2 & D2); auto
    end.
    + intros j w' Hj (A1 & A2 & A3).
      destruct (aget_Some st j ltac:(lia)) as (x & Ex). rewrite Ex. unfold aget in Ex.
      assert (Hx : x < length w').
      { rewrite A1. apply HB. apply nth_error_In in Ex. eapply Permutation_in; [apply Permutation_sym; eauto|auto]. }
      rewrite aset_Some by auto. eexists; split; [reflexivity|].
      split; [rewrite upd_length; auto|]. split.
      * intros p e Hp He. destruct (Nat.eq_dec p j) as [->|N].
        -- assert (x = e) by congruence. subst e. rewrite nth_error_upd_eq by auto.
           destruct (Nat.ltb_spec j m); [lia|auto].
        -- rewrite nth_error_upd_neq; [apply A2; auto; lia|]. intros ->. apply N.
           rewrite NoDup_nth_error in NDs. apply NDs; [lia|congruence].
      * intros k Hk. rewrite nth_error_upd_neq; [apply A3; intros; apply Hk; lia|].
        intros ->. apply (Hk j); auto.
    + rewrite E2. exists st, w2, s1. replace (m + (length stratum - m)) with (length st) in D2 by lia. auto.
Qed.

Lemma numSelected_perm w a b : Permutation a b -> numSelected w a = numSelected w b.
Proof. intros H. unfold numSelected. apply Permutation_length. induction H; simpl; auto.
  - destruct (match nth_error w x with Some true => true | _ => false end); auto.
  - destruct (match nth_error w x with Some true => true | _ => false end),
      (match nth_error w y with Some true => true | _ => false end); auto. apply perm_swap.
  - etransitivity; eauto.
Qed.

Lemma numSelected_app w a b : numSelected w (a ++ b) = numSelected w a + numSelected w b.
Proof. unfold numSelected. rewrite filter_app, app_length. auto. Qed.

Lemma numSelected_ext w w' l : (forall i, In i l -> nth_error w i = nth_error w' i) -> numSelected w l = numSelected w' l.
Proof.
  induction l as [|a l IH]; intros H; auto. unfold numSelected in *. simpl. rewrite (H a) by (left; auto).
  specialize (IH ltac:(intros; apply H; right; auto)).
  destruct (match nth_error w' a with Some true => true | _ => false end); simpl; lia.
Qed.

Lemma numSelected_positions w l : forall off m, m <= off + length l ->
  (forall p e, nth_error l p = Some e -> nth_error w e = Some (off + p <? m)) ->
  numSelected w l = m - off.
Proof.
  unfold numSelected. induction l as [|a l IH]; intros off m Hm H; simpl in *; [lia|].
  rewrite (H 0 a) by auto. rewrite Nat.add_0_r.
  assert (IH' : length (filter (fun i => match nth_error w i with Some true => true | _ => false end) l) = m - S off).
  { apply IH; [lia|]. intros p e Hp. rewrite (H (S p) e Hp). f_equal. f_equal. lia. }
  destruct (Nat.ltb_spec off m); simpl length; rewrite IH'; lia.
Qed.

Lemma dw_numSelected w0 m st w : m <= length st -> dw_inv w0 m (length st) st w -> numSelected w st = m.
Proof.
  intros Hm (D1 & D2 & D3). rewrite (numSelected_positions w st 0 m); [lia|auto|].
  intros p e He. apply D2; auto. apply (proj1 (nth_error_Some st p)). rewrite He. discriminate.
Qed.

Lemma dw_frame w0 m st w k : dw_inv w0 m (length st) st w -> ~ In k st -> nth_error w k = nth_error w0 k.
Proof. intros (D1 & D2 & D3) H. apply D3. intros p _ E. apply H. eapply nth_error_In; eauto. Qed.

Lemma NoDup_app_inv {A} (a b : list A) : NoDup (a ++ b) -> NoDup a /\ NoDup b /\ (forall x, In x a -> ~ In x b).
Proof.
  induction a as [|x a IH]; simpl; intros H.
  - repeat split; auto. constructor.
  - inversion H; subst. destruct (IH H3) as (A1 & A2 & A3). repeat split; auto.
    + constructor; auto. intros I. apply H2. apply in_app_iff. auto.
    + intros y [<-|Hy]; auto. intros I. apply H2. apply in_app_iff. auto.
Qed.

Lemma stratifiedWeightsLoop_ok q T O order : forall nz z w s,
  (0 <= q)%Q -> (q <= 1)%Q -> NoDup (concat order) -> (forall i, In i (concat order) -> i < length w) ->
  (N.of_nat (length (concat order)) < 2 ^ 32)%N -> valid s ->
  exists order' w' nz' s', stratifiedWeightsLoop order q T O nz z w s = Some (order', w', nz', s') /\
    Forall2 (@Permutation nat) order order' /\ valid s' /\ length w' = length w /\
    (forall k, ~ In k (concat order) -> nth_error w' k = nth_error w k) /\
    (forall st, In st order -> exists up, numSelected w' st = roundShare q (length st) up) /\
    nz' = nz + numSelected w' (concat order).
Proof.
  induction order as [|st order IH]; intros nz z w s Q0 Q1 ND HB HN V; simpl.
  - exists [], w, nz, s. split; auto. split; [constructor|]. split; auto. split; auto. split; auto. split; [intros st []|]. unfold numSelected; simpl; lia.
  - simpl in *. apply NoDup_app_inv in ND as (ND1 & ND2 & ND3). rewrite app_length in HN.
    destruct (tiebreak_ok (u32sub T nz) (u32sub O z) s V) as (up & s1 & Et & V1). rewrite Et.
    set (m := roundShare q (length st) up).
    assert (Hm : m <= length st) by (apply roundShare_le; auto).
    destruct (drawWeights_ok st m w s1) as (st' & w1 & s2 & Ed & P & V2 & D); auto.
    { intros i Hi. apply HB. apply in_app_iff. auto. }
    { lia. }
    rewrite Ed.
    assert (L1 : length w1 = length w) by apply D.
    destruct (IH (nz + m) (z + (length st - m)) w1 s2) as (order' & w2 & nz2 & s3 & Ew & F2 & V3 & L2 & FR & SH & NZ); auto.
    { intros i Hi. rewrite L1. apply HB. apply in_app_iff. auto. }
    { lia. }
    rewrite Ew. exists (st' :: order'), w2, nz2, s3. split; auto. split; [constructor; auto|]. split; auto.
    split; [lia|].
    assert (SEL : numSelected w2 st = m).
    { rewrite (numSelected_perm w2 st st' P). rewrite <- (dw_numSelected w m st' w1).
      - apply numSelected_ext. intros i Hi. apply FR. apply ND3. eapply Permutation_in; [apply Permutation_sym; eauto|auto].
      - rewrite <- (Permutation_length P). auto.
      - auto. }
    split; [|split].
    + intros k Hk. rewrite in_app_iff in Hk. rewrite FR by tauto. eapply dw_frame; eauto.
      intros I. apply Hk. left. eapply Permutation_in; [apply Permutation_sym; eauto|auto].
    + intros t [<-|Ht]; auto. exists up. auto.
    + rewrite numSelected_app, SEL, NZ. lia.
Qed.

(** * Partition *)
Definition dp_inv (first0 : list nat) (fi0 : nat) (i : nat) (st first : list nat) (fi : nat) : Prop :=
  length first = length first0 /\ fi = fi0 + i /\ firstn fi first = firstn fi0 first0 ++ firstn i st.

Lemma firstn_swap (st : list nat) i r x y : i <= r -> nth_error st r = Some x -> nth_error st i = Some y ->
  firstn (S i) (upd (upd st r y) i x) = firstn i st ++ [x].
Proof.
  intros H Hr Hi. assert (i < length st) by (apply nth_error_Some; congruence).
  rewrite upd_firstn by (rewrite upd_length; auto). f_equal.
  apply nth_error_ext. intros k. destruct (Nat.lt_ge_cases k i).
  - rewrite <- (firstn_skipn i (upd st r y)) || idtac.
    assert (G : forall l : list nat, nth_error (firstn i l) k = nth_error l k).
    { intros l. revert k H1. clear. revert l. induction i; intros [|a l] [|k] H; simpl; auto; try lia. apply IHi. lia. }
    rewrite ?firstn_skipn. rewrite !G. rewrite nth_error_upd_neq by lia. auto.
  - rewrite (proj2 (nth_error_None _ _)), (proj2 (nth_error_None (firstn i st) k)); auto;
      rewrite firstn_length, ?upd_length; lia.
Qed.

Lemma drawPartition_ok stratum m first fi second si s :
  m <= length stratum -> (N.of_nat (length stratum) < 2 ^ 32)%N -> valid s ->
  fi + m <= length first -> si + (length stratum - m) <= length second ->
  exists st first' second' s',
    drawPartition stratum m first fi second si s = Some (st, first', fi + m, second', si + (length stratum - m), s') /\
    Permutation stratum st /\ valid s' /\ length first' = length first /\ length second' = length second /\
    firstn (fi + m) first' = firstn fi first ++ firstn m st /\
    firstn (si + (length stratum - m)) second' = firstn si second ++ skipn m st.
Proof.
  intros Hm HN V H1 H2. unfold drawPartition.
  match goal with |- context [forN m 0 ?f ?x] =>
    destruct (forN_inv (fun i '(st, fst', f', s) => Permutation stratum st /\ valid s /\ dp_inv first fi i st fst' f') f m 0 x)
      as ((((st & first1) & fi1) & s1) & E1 & P1 & V1 & D1)
  end.
  - split; auto. split; auto. split; auto. split; [lia|]. simpl. rewrite app_nil_r. auto.
  - intros i (((st & fst1) & f1) & s1) Hi (P1 & V1 & D1 & D2 & D3).
    pose proof (Permutation_length P1) as L1.
    destruct (randomInt_ok s1 i (length stratum) V1) as (r & s2 & Er & Hr & V2); [lia|lia|].
    rewrite Er. destruct (aget_Some st r ltac:(lia)) as (x & Ex). rewrite Ex.
    destruct (aget_Some st i ltac:(lia)) as (y & Ey). rewrite Ey. unfold aget in *.
    rewrite aset_Some by lia. rewrite aset_Some by (rewrite upd_length; lia).
    rewrite aset_Some by lia. eexists; split; [reflexivity|]. cbv beta iota.
    split; [etransitivity; [exact P1|apply swap_perm; auto]|]. split; auto.
    split; [rewrite upd_length; auto|]. split; [lia|].
    rewrite Nat.add_1_r, upd_firstn by lia. rewrite D3. rewrite (firstn_swap st i r x y) by (auto; lia).
    rewrite app_assoc. auto.
  - rewrite E1. simpl in D1. destruct D1 as (A1 & A2 & A3).
    pose proof (Permutation_length P1) as L1.
    match goal with |- context [forN ?c m ?f (second, si)] =>
      destruct (forN_inv (fun j '(snd', s') => length snd' = length second /\ s' = si + (j - m) /\
         firstn s' snd' = firstn si second ++ firstn (j - m) (skipn m st)) f c m (second, si)) as ((second2 & si2) & E2 & B1 & B2 & B3)
    end.
    + rewrite Nat.sub_diag. simpl. rewrite app_nil_r. split; auto.
    + intros j (snd' & s') Hj (B1 & B2 & B3).
      destruct (aget_Some st j ltac:(lia)) as (x & Ex). rewrite Ex. unfold aget in Ex.
      rewrite aset_Some by lia. eexists; split; [reflexivity|]. cbv beta iota.
      rewrite upd_length. split; auto. split; [lia|].
      rewrite Nat.add_1_r, upd_firstn by lia. rewrite B3.
      replace (S j - m) with (S (j - m)) by lia. rewrite (firstn_S_nth _ _ x).
      * rewrite app_assoc. auto.
      * rewrite <- Ex. rewrite <- (firstn_skipn m st) at 2. rewrite nth_error_app2; rewrite firstn_length.
        -- f_equal. lia.
        -- lia.
    + rewrite E2. subst fi1 si2.
      replace (m + (length stratum - m) - m) with (length stratum - m) in * by lia.
      exists st, first1, second2, s1. split; auto. split; auto. split; auto. split; auto. split; auto.
      split; auto. rewrite B3. rewrite (firstn_all2 (skipn m st)); auto. rewrite skipn_length. lia.
Qed.

Definition share_ok (share : nat -> nat -> nat -> bool -> option nat) : Prop :=
  forall a b n up, 0 < a + b -> exists m, share a b n up = Some m /\ m <= n.

Lemma stratifiedPartitionLoop_ok share order : share_ok share -> forall nf ns first fi second si s,
  Forall (fun st => st <> []) order ->
  (N.of_nat (length (concat order)) < 2 ^ 32)%N -> valid s -> length (concat order) = nf + ns ->
  fi + nf = length first -> si + ns = length second ->
  exists order' first' second' s',
    stratifiedPartitionLoop share order nf ns first fi second si s = Some (order', first', second', s') /\
    Forall2 (@Permutation nat) order order' /\ valid s' /\
    length first' = length first /\ length second' = length second /\
    exists a b, first' = firstn fi first ++ a /\ second' = firstn si second ++ b /\
      length a = nf /\ length b = ns /\ Permutation (a ++ b) (concat order).
Proof.
  intros SH. induction order as [|st order IH]; intros nf ns first fi second si s NE HN V HL Hf Hs; simpl.
  - simpl in HL. exists [], first, second, s. split; auto. split; [constructor|]. split; auto. split; auto. split; auto.
    exists [], []. rewrite !app_nil_r. rewrite !firstn_all2 by lia. repeat split; auto; simpl; lia.
  - simpl in *. rewrite app_length in *. inversion NE; subst.
    destruct (tiebreak_ok (u32 (N.of_nat nf)) (u32 (N.of_nat ns)) s V) as (up & s1 & Et & V1). rewrite Et.
    assert (0 < length st) by (destruct st; simpl; [congruence|lia]).
    destruct (SH nf ns (length st) up ltac:(lia)) as (m0 & Em & Hm0). rewrite Em.
    set (m := if nf <? m0 then nf else if ns <? length st - m0 then length st - ns else m0).
    assert (Hm : m <= length st /\ m <= nf /\ length st - m <= ns).
    { unfold m. destruct (Nat.ltb_spec nf m0); [lia|]. destruct (Nat.ltb_spec ns (length st - m0)); lia. }
    destruct Hm as (M1 & M2 & M3).
    destruct (drawPartition_ok st m first fi second si s1) as (st' & f1 & s2' & s3 & Ed & P & V2 & L1 & L2 & F1 & F2); auto; try lia.
    rewrite Ed.
    destruct (IH (nf - m) (ns - (length st - m)) f1 (fi + m) s2' (si + (length st - m)) s3)
      as (order' & f' & s' & s4 & El & FP & V3 & L3 & L4 & a & b & Ea & Eb & La & Lb & Pab); auto; try lia.
    rewrite El. exists (st' :: order'), f', s', s4. split; auto. split; [constructor; auto|]. split; auto.
    split; [lia|]. split; [lia|].
    pose proof (Permutation_length P) as LP.
    exists (firstn m st' ++ a), (skipn m st' ++ b).
    rewrite F1 in Ea. rewrite F2 in Eb. rewrite <- app_assoc in Ea, Eb. split; auto. split; auto.
    split; [rewrite app_length, firstn_length; lia|]. split; [rewrite app_length, skipn_length; lia|].
    transitivity (st' ++ concat order); [|apply Permutation_app_tail; apply Permutation_sym; auto].
    rewrite <- (firstn_skipn m st') at 3. rewrite <- !app_assoc. apply Permutation_app_head.
    rewrite (Permutation_app_comm a). rewrite <- app_assoc. apply Permutation_app_head.
    rewrite (Permutation_app_comm b). auto.
Qed.

Lemma exactShare_ok : share_ok exactShare.
Proof.
  intros a b n up H. unfold exactShare. destruct (a + b) as [|k] eqn:E; [lia|].
  eexists; split; [reflexivity|]. apply roundShare_le.
  - unfold Qle; simpl. lia.
  - unfold Qle; simpl. lia.
Qed.

(** * Strata by label vectors *)
Lemma equalRows_spec a : forall b, equalRows a b = true <-> a = b.
Proof.
  induction a as [|x a IH]; intros [|y b]; simpl; split; intros H; try discriminate; auto.
  - apply andb_true_iff in H as [H1 H2]. apply eqb_prop in H1. apply IH in H2. congruence.
  - injection H as -> ->. rewrite eqb_reflx. apply IH. auto.
Qed.

Definition groups_inv {K} (rows : list K) (seen : list nat) (map0 : list (K * list nat)) : Prop :=
  NoDup (map fst map0) /\
  (forall k l, In (k, l) map0 -> l <> [] /\ forall i, In i l <-> In i seen /\ nth_error rows i = Some k) /\
  (forall i, In i seen -> exists k l, In (k, l) map0 /\ nth_error rows i = Some k) /\
  Permutation (concat (map snd map0)) seen.

Lemma addToGroup_spec {K} (eqb : K -> K -> bool) (eqb_spec : forall a b, eqb a b = true <-> a = b) m key e :
  (In key (map fst m) /\ exists a l b, m = a ++ (key, l) :: b /\ addToGroup eqb m key e = a ++ (key, l ++ [e]) :: b) \/
  (~ In key (map fst m) /\ addToGroup eqb m key e = m ++ [(key, [e])]).
Proof.
  induction m as [|[k l] m IH]; simpl.
  - right. auto.
  - destruct (eqb k key) eqn:E.
    + apply eqb_spec in E. subst. left. split; auto. exists [], l, m. auto.
    + assert (N : k <> key). { intros ->. rewrite (proj2 (eqb_spec key key) eq_refl) in E. discriminate. }
      destruct IH as [[I (a & l' & b & -> & ->)]|[I ->]].
      * left. split; auto. exists ((k, l) :: a), l', b. auto.
      * right. split; auto. intros [H|H]; auto.
Qed.

Lemma groupExamples_inv {K} (eqb : K -> K -> bool) (eqb_spec : forall a b, eqb a b = true <-> a = b) rows indices :
  forall seen m, groups_inv rows seen m -> (forall i, In i indices -> i < length rows) ->
  exists m', groupExamples eqb rows indices m = Some m' /\ groups_inv rows (seen ++ indices) m'.
Proof.
  induction indices as [|e indices IH]; intros seen m Hi HB; simpl.
  - exists m. rewrite app_nil_r. auto.
  - destruct (aget_Some rows e (HB e (or_introl eq_refl))) as (key & Ek). rewrite Ek. unfold aget in Ek.
    destruct (IH (seen ++ [e]) (addToGroup eqb m key e)) as (m' & E & I').
    + destruct Hi as (I1 & I2 & I3 & I4).
      destruct (addToGroup_spec eqb eqb_spec m key e) as [[HI (a & l & b & Em & ->)]|[HI ->]].
      * subst m. rewrite map_app in *. simpl in *.
        assert (ND : ~ In key (map fst a) /\ ~ In key (map fst b)).
        { apply NoDup_remove_2 in I1. rewrite in_app_iff in I1. tauto. }
        split; [rewrite map_app; auto|]. split; [|split].
        -- intros k l0 Hin. rewrite in_app_iff in Hin. simpl in Hin.
           destruct Hin as [Hin|[Heq|Hin]].
           ++ destruct (I2 k l0) as [N0 N1]; [apply in_app_iff; auto|]. split; auto. intros i. rewrite N1, in_app_iff.
              split; [tauto|]. intros [[H|[<-|[]]] H']; auto. exfalso. rewrite Ek in H'. injection H' as <-.
              apply (proj1 ND). apply in_map_iff. exists (key, l0). auto.
           ++ injection Heq as <- <-. split; [destruct l; discriminate|]. intros i.
              destruct (I2 key l) as [N0 N1]; [apply in_app_iff; simpl; auto|].
              rewrite !in_app_iff, N1. simpl. intuition (subst; auto).
           ++ destruct (I2 k l0) as [N0 N1]; [apply in_app_iff; simpl; auto|]. split; auto. intros i. rewrite N1, in_app_iff.
              split; [tauto|]. intros [[H|[<-|[]]] H']; auto. exfalso. rewrite Ek in H'. injection H' as <-.
              apply (proj2 ND). apply in_map_iff. exists (key, l0). auto.
        -- intros i Hin. apply in_app_iff in Hin as [Hin|[<-|[]]].
           ++ destruct (I3 i Hin) as (k & l0 & H1 & H2). apply in_app_iff in H1. simpl in H1.
              destruct H1 as [H1|[[= <- <-]|H1]].
              ** exists k, l0. rewrite in_app_iff. auto.
              ** exists key, (l ++ [e]). rewrite in_app_iff. simpl. auto.
              ** exists k, l0. rewrite in_app_iff. simpl. auto.
           ++ exists key, (l ++ [e]). rewrite in_app_iff. simpl. auto.
        -- rewrite map_app, concat_app in *. simpl in *. rewrite <- app_assoc. simpl.
           rewrite <- (Permutation_middle (concat (map snd a) ++ l) (concat (map snd b)) e) || idtac.
           transitivity (e :: seen); [|apply Permutation_cons_append].
           rewrite app_assoc. rewrite <- Permutation_middle. constructor. rewrite <- app_assoc. auto.
      * assert (NK : forall k l, In (k, l) m -> k <> key).
        { intros k l H ->. apply HI. apply in_map_iff. exists (key, l). auto. }
        split; [rewrite map_app; simpl; apply NoDup_snoc; auto|]. split; [|split].
        -- intros k l0 Hin. apply in_app_iff in Hin as [Hin|[[= <- <-]|[]]].
           ++ destruct (I2 k l0 Hin) as [N0 N1]. split; auto. intros i. rewrite N1, in_app_iff.
              split; [tauto|]. intros [[H|[<-|[]]] H']; auto. exfalso. rewrite Ek in H'. injection H' as <-.
              eapply NK; eauto.
           ++ split; [discriminate|]. intros i. rewrite in_app_iff. simpl. split.
              ** intros [<-|[]]. auto.
              ** intros [[H|[<-|[]]] H']; auto. exfalso.
                 destruct (I3 i H) as (k & l0 & A & B). rewrite H' in B. injection B as <-. eapply NK; eauto.
        -- intros i Hin. apply in_app_iff in Hin as [Hin|[<-|[]]].
           ++ destruct (I3 i Hin) as (k & l0 & H1 & H2). exists k, l0. rewrite in_app_iff. auto.
           ++ exists key, [e]. rewrite in_app_iff. simpl. auto.
        -- rewrite map_app, concat_app. simpl. apply Permutation_app_tail. auto.
    + intros i Hin. apply HB. right. auto.
    + exists m'. split; auto. rewrite <- app_assoc in I'. exact I'.
Qed.

Lemma groups_inv_nil {K} (rows : list K) : groups_inv rows [] [].
Proof. split; [constructor|]. split; [intros k l []|]. split; [intros i []|constructor]. Qed.

Lemma concat_perm {A} (a b : list (list A)) : Permutation a b -> Permutation (concat a) (concat b).
Proof.
  induction 1; simpl; auto.
  - apply Permutation_app_head; auto.
  - rewrite !app_assoc. apply Permutation_app_tail. apply Permutation_app_comm.
  - etransitivity; eauto.
Qed.

Lemma stratum_perm rows indices groups k l :
  NoDup indices -> groups_inv rows indices groups -> In (k, l) groups -> NoDup l ->
  Permutation l (stratumOf rows indices k).
Proof.
  intros ND (G1 & G2 & G3 & G4) Hin NDl. apply NoDup_Permutation; auto.
  - apply NoDup_filter. auto.
  - intros i. unfold stratumOf. rewrite filter_In. rewrite (proj2 (G2 k l Hin) i).
    destruct (nth_error rows i) as [r|] eqn:E.
    + destruct (list_eq_dec bool_dec r k); split; intros [? H']; split; auto; try congruence.
    + split; intros [? H']; discriminate.
Qed.

Lemma NoDup_concat_In {A} (ll : list (list A)) l : NoDup (concat ll) -> In l ll -> NoDup l.
Proof.
  induction ll as [|a ll IH]; simpl; intros H Hin; [tauto|].
  apply NoDup_app_inv in H. destruct Hin as [->|Hin]; [tauto|]. apply IH; tauto.
Qed.

Lemma C08_weights_lemma rows indices order q minS maxS w s :
  NoDup indices -> (forall i, In i indices -> i < length rows) -> length rows <= length w ->
  (N.of_nat (length indices) < 2 ^ 32)%N -> (0 <= q)%Q -> (q <= 1)%Q -> (1 <= s < 2 ^ 32)%N ->
  forall groups, groupExamples equalRows rows indices [] = Some groups ->
  Permutation order (map snd groups) -> sortedBySize order ->
  exists order' w' n s', stratifiedWeights order (length indices) q minS maxS w s = Some (order', w', n, s') /\
    (1 <= s' < 2 ^ 32)%N /\
    Forall2 (@Permutation nat) order order' /\
    length w' = length w /\
    (forall i, ~ In i indices -> nth_error w' i = nth_error w i) /\
    n = numSelected w' indices /\
    (forall row, let stratum := stratumOf rows indices row in
       let x := (q * inject_Z (Z.of_nat (length stratum)))%Q in
       Z.of_nat (numSelected w' stratum) = Qfloor x \/ Z.of_nat (numSelected w' stratum) = Qceiling x).
Proof.
  intros ND HB HW HN Q0 Q1 V groups HG HP HS.
  destruct (groupExamples_inv equalRows equalRows_spec rows indices [] [] (groups_inv_nil rows) HB) as (g & Eg & GI).
  rewrite HG in Eg. injection Eg as <-. simpl in GI.
  assert (PC : Permutation (concat order) indices).
  { etransitivity; [apply concat_perm; eauto|]. apply GI. }
  unfold stratifiedWeights. set (T := calculateBoundedFraction _ _ _ _).
  destruct (stratifiedWeightsLoop_ok q T (length indices - T) order 0 0 w s) as (o' & w' & n & s' & E & F & V' & L & FR & SH & NZ); auto.
  { eapply Permutation_NoDup; [apply Permutation_sym; eauto|auto]. }
  { intros i Hi. apply (Permutation_in _ PC) in Hi. specialize (HB _ Hi). lia. }
  { rewrite (Permutation_length PC). auto. }
  exists o', w', n, s'. split; auto. split; auto. split; auto. split; auto. split.
  { intros i Hi. apply FR. intros C. apply Hi. eapply Permutation_in; eauto. }
  split. { rewrite NZ. simpl. apply numSelected_perm. auto. }
  intros row. set (stratum := stratumOf rows indices row). set (x := (q * inject_Z (Z.of_nat (length stratum)))%Q).
  destruct (in_dec (list_eq_dec bool_dec) row (map fst groups)) as [I|I].
  - apply in_map_iff in I as ([k l] & Ek & Hin). simpl in Ek. subst k.
    assert (Hl : In l order). { eapply Permutation_in; [apply Permutation_sym; eauto|]. apply in_map_iff. exists (row, l). auto. }
    assert (NDl : NoDup l). { eapply NoDup_concat_In; [|exact Hl]. eapply Permutation_NoDup; [apply Permutation_sym; eauto|auto]. }
    pose proof (stratum_perm rows indices groups row l ND GI Hin NDl) as PS.
    destruct (SH l Hl) as (up & Es).
    fold stratum in PS. rewrite <- (numSelected_perm w' l stratum PS), Es.
    rewrite (Permutation_length PS). unfold roundShare. fold x.
    assert (X0 : (0 <= x)%Q).
    { unfold x. apply Qmult_le_0_compat; auto. change 0%Q with (inject_Z 0). rewrite <- Zle_Qle. lia. }
    destruct up; [right|left]; rewrite Z2Nat.id; auto.
    + change 0%Z with (Qceiling (inject_Z 0)). apply Qceiling_resp_le. auto.
    + change 0%Z with (Qfloor (inject_Z 0)). apply Qfloor_resp_le. auto.
  - assert (stratum = []).
    { unfold stratum, stratumOf. destruct (filter _ indices) as [|i l] eqn:Ef; auto. exfalso.
      assert (Hi : In i (i :: l)) by (left; auto). rewrite <- Ef in Hi. apply filter_In in Hi as [Hi Hr].
      destruct GI as (_ & _ & G3 & _). destruct (G3 i Hi) as (k & l' & Hin & Hk). rewrite Hk in Hr.
      destruct (list_eq_dec bool_dec k row); [|discriminate]. subst. apply I. apply in_map_iff. exists (row, l'). auto. }
    left. assert (Y : (x == inject_Z 0)%Q).
    { unfold x. rewrite H. simpl length. change (inject_Z (Z.of_nat 0)) with 0%Q. change (inject_Z 0) with 0%Q. ring. }
    assert (Qfloor x <= 0)%Z by (change 0%Z with (Qfloor (inject_Z 0)); apply Qfloor_resp_le; rewrite Y; apply Qle_refl).
    assert (0 <= Qfloor x)%Z by (change 0%Z with (Qfloor (inject_Z 0)); apply Qfloor_resp_le; rewrite Y; apply Qle_refl).
    clearbody x. replace (numSelected w' stratum) with 0 by (rewrite H; auto). lia.
Qed.

Lemma C08_partition_lemma share rows indices order first second s :
  (forall a b n up, 0 < a + b -> exists m, share a b n up = Some m /\ m <= n) ->
  (forall i, In i indices -> i < length rows) ->
  (N.of_nat (length indices) < 2 ^ 32)%N -> (1 <= s < 2 ^ 32)%N ->
  length first + length second = length indices ->
  forall groups, groupExamples equalRows rows indices [] = Some groups ->
  Permutation order (map snd groups) ->
  exists order' first' second' s',
    stratifiedPartition share order first second s = Some (order', first', second', s') /\
    Forall2 (@Permutation nat) order order' /\ (1 <= s' < 2 ^ 32)%N /\
    length first' = length first /\ length second' = length second /\
    Permutation (first' ++ second') indices.
Proof.
  intros SH HB HN V HL groups HG HP.
  destruct (groupExamples_inv equalRows equalRows_spec rows indices [] [] (groups_inv_nil rows) HB) as (g & Eg & GI).
  rewrite HG in Eg. injection Eg as <-. simpl in GI.
  assert (PC : Permutation (concat order) indices).
  { etransitivity; [apply concat_perm; eauto|]. apply GI. }
  pose proof (Permutation_length PC) as LC.
  destruct (stratifiedPartitionLoop_ok share order SH (length first) (length second) first 0 second 0 s)
    as (o' & f' & s' & st' & E & F & V' & L1 & L2 & a & b & Ea & Eb & La & Lb & P); auto; try lia.
  { apply Forall_forall. intros l Hl. apply (Permutation_in _ HP) in Hl. apply in_map_iff in Hl as ([k l'] & <- & Hin).
    destruct GI as (_ & G2 & _). apply (G2 k l' Hin). }
  unfold stratifiedPartition. exists o', f', s', st'. split; auto. split; auto. split; auto. split; auto. split; auto.
  simpl in Ea, Eb. subst. etransitivity; eauto.
Qed.
