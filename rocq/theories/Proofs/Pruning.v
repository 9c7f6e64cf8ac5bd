(** Proofs about global pre- and post-pruning and the size-/time-based stopping criteria. *)
From Coq Require Import ZArith QArith Arith List Bool Lia Permutation Lqa Field Qfield.
From Verif Require Import Lib.Arr Model.Containers Model.Rules Model.Stopping Spec.Containers Spec.Rules Spec.Stopping
  Proofs.Containers Proofs.Stopping.
Import ListNotations.
Open Scope nat_scope.

(** ** Means *)

Lemma Qsum_app l1 l2 : (Qsum (l1 ++ l2) == Qsum l1 + Qsum l2)%Q.
Proof. induction l1; simpl; [ring|]. unfold Qsum in *. simpl. rewrite IHl1. ring. Qed.

Lemma Qsum_perm l1 l2 : Permutation l1 l2 -> (Qsum l1 == Qsum l2)%Q.
Proof.
  induction 1; simpl; try ring.
  - rewrite IHPermutation. ring.
  - rewrite IHPermutation1. auto.
Qed.

Lemma inject_S n : (inject_Z (Z.of_nat (S n)) == inject_Z (Z.of_nat n) + 1)%Q.
Proof. rewrite Nat2Z.inj_succ. unfold Z.succ. rewrite inject_Z_plus. reflexivity. Qed.

Lemma inject_pos n : (0 < inject_Z (Z.of_nat (S n)))%Q.
Proof. unfold Qlt. simpl. lia. Qed.

Lemma mean_step n x mean s : (mean * inject_Z (Z.of_nat n) == s)%Q ->
  (iterativeArithmeticMean (n + 1) x mean * inject_Z (Z.of_nat (n + 1)) == s + x)%Q.
Proof.
  intros H. unfold iterativeArithmeticMean. rewrite Nat.add_1_r.
  pose proof (inject_pos n) as P. rewrite Qmult_plus_distr_l.
  setoid_replace ((x - mean) / inject_Z (Z.of_nat (S n)) * inject_Z (Z.of_nat (S n)))%Q with (x - mean)%Q.
  - rewrite inject_S, Qmult_plus_distr_r, H. ring.
  - field. intros E. rewrite E in P. apply Qlt_irrefl in P. auto.
Qed.

(** The loop that computes the mean of the values [f x] of the elements of a list. *)
Lemma mean_loop {A} (l : list A) (f : A -> Q) :
  exists mean, forN (length l) 0 (fun i mean =>
      let* x := aget l i in Some (iterativeArithmeticMean (i + 1) (f x) mean)) 0%Q = Some mean /\
    (mean * inject_Z (Z.of_nat (length l)) == Qsum (map f l))%Q.
Proof.
  match goal with |- exists _, forN _ _ ?body _ = _ /\ _ =>
    destruct (forN_inv (fun i mean => (mean * inject_Z (Z.of_nat i) == Qsum (map f (firstn i l)))%Q) body
      (length l) 0 0%Q) as (mean & E1 & E2) end.
  - simpl. reflexivity.
  - intros i mean Hi I. destruct (aget_Some l i ltac:(lia)) as (x & E). rewrite E.
    eexists. split; [reflexivity|]. cbv beta.
    rewrite (firstn_S_nth _ _ _ E), map_app, Qsum_app. rewrite <- (Nat.add_1_r i).
    etransitivity; [apply mean_step; exact I|]. simpl. ring.
  - exists mean. split; auto. rewrite Nat.add_0_l, firstn_all in E2. auto.
Qed.

Definition evaluated_indices (p : partition) (useHoldoutSet : bool) : list nat :=
  match p with Single l => l | Bi first second => if useHoldoutSet then second else first end.

Lemma evaluate_lemma (p : partition) (h : bool) (f : nat -> Q) :
  exists mean, evaluatePartition p h f = Some mean /\
    (mean * inject_Z (Z.of_nat (length (evaluated_indices p h))) == Qsum (map f (evaluated_indices p h)))%Q.
Proof.
  destruct p as [l|l1 l2]; simpl.
  - apply (mean_loop l f).
  - destruct h; apply (mean_loop _ f).
Qed.

(** ** Aggregation functions *)

Lemma aggregate_ok f l : l <> [] -> exists a, aggregate f l = Some a /\ is_aggregate f l a.
Proof.
  intros Hl. destruct f; simpl.
  - unfold aggregateMin. destruct l as [|x l]; [contradiction|]. simpl aget.
    match goal with |- exists _, (let* first := _ in forN _ _ ?body _) = _ /\ _ => 
      destruct (forN_inv (fun i m => (exists y, In y (firstn i (x :: l)) /\ y == m)%Q /\
        (forall y, In y (firstn i (x :: l)) -> m <= y)%Q) body (length (x :: l) - 1) 1 x) as (a & E1 & E2) end.
    + split; [exists x; simpl; split; auto; reflexivity|]. simpl. intros y [->|[]]. apply Qle_refl.
    + intros i m Hi (I1 & I2). destruct (aget_Some (x :: l) i ltac:(simpl in *; lia)) as (y & E). rewrite E.
      eexists. split; [reflexivity|]. rewrite (firstn_S_nth _ _ _ E). split.
      * destruct (Qlt_le_dec y m).
        -- exists y. split; [apply in_or_app; simpl; auto|reflexivity].
        -- destruct I1 as (z & I1 & I3). exists z. split; auto. apply in_or_app; auto.
      * intros z Hz. apply in_app_or in Hz as [Hz|[<-|[]]].
        -- specialize (I2 z Hz). destruct (Qlt_le_dec y m); auto. apply Qlt_le_weak in q. eapply Qle_trans; eauto.
        -- destruct (Qlt_le_dec y m); auto. apply Qle_refl.
    + exists a. split; auto. replace (1 + (length (x :: l) - 1)) with (length (x :: l)) in E2 by (simpl; lia).
      rewrite firstn_all in E2. auto.
  - unfold aggregateMax. destruct l as [|x l]; [contradiction|]. simpl aget.
    match goal with |- exists _, (let* first := _ in forN _ _ ?body _) = _ /\ _ => 
      destruct (forN_inv (fun i m => (exists y, In y (firstn i (x :: l)) /\ y == m)%Q /\
        (forall y, In y (firstn i (x :: l)) -> y <= m)%Q) body (length (x :: l) - 1) 1 x) as (a & E1 & E2) end.
    + split; [exists x; simpl; split; auto; reflexivity|]. simpl. intros y [->|[]]. apply Qle_refl.
    + intros i m Hi (I1 & I2). destruct (aget_Some (x :: l) i ltac:(simpl in *; lia)) as (y & E). rewrite E.
      eexists. split; [reflexivity|]. rewrite (firstn_S_nth _ _ _ E). split.
      * destruct (Qlt_le_dec m y).
        -- exists y. split; [apply in_or_app; simpl; auto|reflexivity].
        -- destruct I1 as (z & I1 & I3). exists z. split; auto. apply in_or_app; auto.
      * intros z Hz. apply in_app_or in Hz as [Hz|[<-|[]]].
        -- specialize (I2 z Hz). destruct (Qlt_le_dec m y); auto. apply Qlt_le_weak in q. eapply Qle_trans; eauto.
        -- destruct (Qlt_le_dec m y); auto. apply Qle_refl.
    + exists a. split; auto. replace (1 + (length (x :: l) - 1)) with (length (x :: l)) in E2 by (simpl; lia).
      rewrite firstn_all in E2. auto.
  - unfold aggregateMean. destruct (mean_loop l (fun x => x)) as (m & E1 & E2). exists m. split; auto.
    rewrite map_id in E2. auto.
Qed.

Lemma aggregate_perm f l1 l2 a : Permutation l1 l2 -> is_aggregate f l1 a -> is_aggregate f l2 a.
Proof.
  intros P. destruct f; simpl.
  - intros ((x & H1 & H2) & H3). split.
    + exists x. split; auto. eapply Permutation_in; eauto.
    + intros y Hy. apply H3. eapply Permutation_in; [symmetry|]; eauto.
  - intros ((x & H1 & H2) & H3). split.
    + exists x. split; auto. eapply Permutation_in; eauto.
    + intros y Hy. apply H3. eapply Permutation_in; [symmetry|]; eauto.
  - intros H. rewrite <- (Permutation_length P), H. apply Qsum_perm; auto.
Qed.

Lemma aggregate_unique f l a b : l <> [] -> is_aggregate f l a -> is_aggregate f l b -> (a == b)%Q.
Proof.
  intros Hl. destruct f; simpl.
  - intros ((x & H1 & H2) & H3) ((y & H4 & H5) & H6).
    pose proof (H3 _ H4). pose proof (H6 _ H1). lra.
  - intros ((x & H1 & H2) & H3) ((y & H4 & H5) & H6).
    pose proof (H3 _ H4). pose proof (H6 _ H1). lra.
  - intros H1 H2. destruct l as [|x l]; [contradiction|]. simpl length in *. pose proof (inject_pos (length l)) as P.
    rewrite <- H2 in H1. apply Qmult_inj_r in H1; auto. intros E. rewrite E in P. apply Qlt_irrefl in P. auto.
Qed.

Lemma improvement_proper a a' b b' m : (a == a')%Q -> (b == b')%Q ->
  improvement_below a b m -> improvement_below a' b' m.
Proof.
  unfold improvement_below. intros Ea Eb [(H1 & H2)|(H1 & H2)]; [left|right].
  - rewrite <- Ea, <- Eb. auto.
  - rewrite <- Ea, <- Eb. auto.
Qed.

Lemma insufficient_iff a b m : insufficientImprovement a b m = true <-> improvement_below a b m.
Proof.
  unfold insufficientImprovement, improvement_below. destruct (Qeq_dec b 0).
  - destruct (Qlt_le_dec a 0); split; auto; try discriminate.
    intros [(H & _)|(_ & H)]; [contradiction|]. lra.
  - destruct (Qlt_le_dec ((a - b) / b) m); split; auto; try discriminate.
    intros [(_ & H)|(H & _)]; [|contradiction]. exfalso. eapply Qlt_not_le; eauto.
Qed.

(** ** Best models *)

Lemma first_best_snoc score l n x : first_best score l n ->
  first_best score (l ++ [x]) (if Qlt_le_dec (score x) (score n) then x else n).
Proof.
  intros (l1 & l2 & -> & H1 & H2). destruct (Qlt_le_dec (score x) (score n)).
  - exists (l1 ++ n :: l2), []. split; auto. split; [|constructor]. apply Forall_app. split.
    + eapply Forall_impl; [|apply H1]. intros a Ha. simpl in Ha. eapply Qlt_trans; eauto.
    + constructor; auto. eapply Forall_impl; [|apply H2]. intros a Ha. simpl in Ha. eapply Qlt_le_trans; eauto.
  - exists l1, (l2 ++ [x]). rewrite <- app_assoc. simpl. split; auto. split; auto. apply Forall_app. auto.
Qed.

Lemma first_best_one score x : first_best score [x] x.
Proof. exists [], []. split; auto. Qed.

Lemma filter_seq_snoc P a n : filter P (seq a (S n)) = filter P (seq a n) ++ (if P (a + n) then [a + n] else []).
Proof. rewrite seq_S, filter_app. simpl. auto. Qed.

(** ** Repeated tests *)

Lemma runTests_snoc {St} (test : nat -> St -> option (result * St)) cnt : forall n st,
  runTests test (S cnt) n st =
    let* (rs, st) := runTests test cnt n st in
    let* (r, st) := test (n + cnt) st in Some (rs ++ [r], st).
Proof.
  induction cnt as [|cnt IH]; intros n st.
  - simpl. rewrite Nat.add_0_r. destruct (test n st) as [[r st']|]; auto.
  - change (runTests test (S (S cnt)) n st) with
      (let* (r, st) := test n st in
       let* (rs, st) := runTests test (S cnt) (n + 1) st in Some (r :: rs, st)).
    change (runTests test (S cnt) n st) with
      (let* (r, st) := test n st in
       let* (rs, st) := runTests test cnt (n + 1) st in Some (r :: rs, st)).
    destruct (test n st) as [[r st']|]; auto.
    rewrite IH. destruct (runTests test cnt (n + 1) st') as [[rs st'']|]; auto.
    replace (n + 1 + cnt) with (n + S cnt) by lia. destruct (test (n + S cnt) st'') as [[r0 st0]|]; auto.
Qed.

Lemma runTests_inv {St} (test : nat -> St -> option (result * St)) (Inv : nat -> St -> Prop)
  (Out : nat -> result -> Prop) start :
  (forall n st, start <= n -> Inv n st -> exists r st', test n st = Some (r, st') /\ Inv (n + 1) st' /\ Out n r) ->
  forall cnt st, Inv start st -> exists rs st', runTests test cnt start st = Some (rs, st') /\ length rs = cnt /\
    Inv (start + cnt) st' /\ forall i r, nth_error rs i = Some r -> Out (start + i) r.
Proof.
  intros Hs. induction cnt as [|cnt IH]; intros st Hi.
  - exists [], st. rewrite Nat.add_0_r. split; [reflexivity|]. split; auto. split; auto. intros [|i] r H; discriminate.
  - destruct (IH st Hi) as (rs & st' & E & L & I & O). rewrite runTests_snoc, E.
    destruct (Hs (start + cnt) st' ltac:(lia) I) as (r & st'' & E2 & I2 & O2). rewrite E2.
    exists (rs ++ [r]), st''. split; auto. rewrite app_length. simpl. split; [lia|].
    replace (start + S cnt) with (start + cnt + 1) by lia. split; auto.
    intros i r0 H. destruct (Nat.lt_ge_cases i cnt).
    + rewrite nth_error_app1 in H by lia. auto.
    + rewrite nth_error_app2 in H by lia. destruct (i - length rs) eqn:Ei; simpl in H.
      * injection H as <-. replace i with cnt by lia. auto.
      * destruct n; discriminate.
Qed.

(** ** Post-pruning *)

Lemma C25_lemma (minRules interval : nat) (score : nat -> Q) (start cnt : nat) :
  1 <= minRules -> 1 <= interval ->
  let evaluated := post_evaluated minRules interval start cnt in
  exists rs st,
    runTests (fun n => postTest minRules interval (score n) n) cnt start (postInit minRules) = Some (rs, st) /\
    length rs = cnt /\ (forall r, In r rs -> rStop r = false) /\
    let kept := last_reported (map rNumUsed rs) in
    (evaluated = [] -> kept = 0) /\ (evaluated <> [] -> first_best score evaluated kept).
Proof.
  intros Hm Hv evaluated. unfold evaluated. clear evaluated.
  set (Ev := fun r => (minRules <=? r) && (r mod interval =? 0)).
  assert (G: exists rs st,
    runTests (fun n => postTest minRules interval (score n) n) cnt start (postInit minRules) = Some (rs, st) /\
    length rs = cnt /\ (forall r, In r rs -> rStop r = false) /\
    (filter Ev (seq start cnt) = [] -> last_reported (map rNumUsed rs) = 0 /\ fst st = None) /\
    (filter Ev (seq start cnt) <> [] ->
       first_best score (filter Ev (seq start cnt)) (last_reported (map rNumUsed rs)) /\
       fst st = Some (score (last_reported (map rNumUsed rs))))).
  { induction cnt as [|cnt IH].
    - exists [], (postInit minRules). split; [reflexivity|]. split; auto. split; [intros r []|]. simpl. split; auto.
      intros H; contradiction.
    - destruct IH as (rs & st & E & L & S & I1 & I2). rewrite runTests_snoc, E.
      unfold postTest. destruct (Nat.eqb_spec interval 0); [lia|].
      rewrite filter_seq_snoc. fold (Ev (start + cnt)). destruct (Ev (start + cnt)) eqn:Ee.
      + assert (Hp: minRules <= start + cnt).
        { unfold Ev in Ee. apply andb_prop in Ee as (Ee & _). apply Nat.leb_le in Ee. auto. }
        destruct (filter Ev (seq start cnt)) as [|y ys] eqn:Ef.
        * destruct (I1 eq_refl) as (K1 & K2). rewrite K2. simpl isBetter. cbv iota.
          eexists. eexists. split; [reflexivity|]. rewrite app_length. simpl length. split; [lia|].
          split. { intros r Hr. apply in_app_or in Hr as [Hr|[<-|[]]]; auto. }
          rewrite map_app. simpl map. rewrite last_reported_snoc. destruct (Nat.eqb_spec (start + cnt) 0); [lia|].
          split; [discriminate|]. intros _. split; auto. apply first_best_one.
        * destruct I2 as (K1 & K2); [discriminate|]. rewrite K2. simpl isBetter.
          pose proof (first_best_snoc _ _ _ (start + cnt) K1) as B.
          destruct (Qlt_le_dec (score (start + cnt)) (score (last_reported (map rNumUsed rs)))).
          -- eexists. eexists. split; [reflexivity|]. rewrite app_length. simpl length. split; [lia|].
             split. { intros r Hr. apply in_app_or in Hr as [Hr|[<-|[]]]; auto. }
             rewrite map_app. simpl map. rewrite last_reported_snoc. destruct (Nat.eqb_spec (start + cnt) 0); [lia|].
             split; [discriminate|]. intros _. split; auto.
          -- eexists. eexists. split; [reflexivity|]. rewrite app_length. simpl length. split; [lia|].
             split. { intros r Hr. apply in_app_or in Hr as [Hr|[<-|[]]]; auto. }
             rewrite map_app. simpl map. rewrite last_reported_snoc. simpl (0 =? 0). cbv iota.
             split; [discriminate|]. intros _. split; auto.
      + eexists. eexists. split; [reflexivity|]. rewrite app_length. simpl length. split; [lia|].
        split. { intros r Hr. apply in_app_or in Hr as [Hr|[<-|[]]]; auto. }
        rewrite map_app. simpl map. rewrite last_reported_snoc. simpl (0 =? 0). cbv iota.
        rewrite app_nil_r. auto. }
  destruct G as (rs & st & E & L & S & I1 & I2). exists rs, st. unfold post_evaluated. fold Ev.
  split; auto. split; auto. split; auto. split; intros H; [apply I1; auto|apply I2; auto].
Qed.

(** ** Pre-pruning *)

Lemma rb_elements_perm {A} n hist (b : ring A) : rb_inv n hist b -> Permutation (rb_elements b) (lastn n hist).
Proof.
  intros (I1 & I2 & I3 & I4 & I5). unfold rb_elements. rewrite <- I5. unfold rb_chrono.
  destruct (rb_full b); auto. rewrite firstn_all. symmetry. apply skip_first_perm.
Qed.

Lemma lastn_firstn {A} p c (h : list A) : p + c <= length h ->
  lastn p (firstn (length h - c) h) = firstn p (lastn (p + c) h).
Proof.
  intros H. unfold lastn. rewrite firstn_length, Nat.min_l by lia.
  replace (length h - c - p) with (length h - (p + c)) by lia.
  rewrite skipn_firstn_comm. f_equal. lia.
Qed.

Section Pre.
Context (c : preConfig) (score : nat -> Q) (start : nat).
Hypothesis Hu : 1 <= pcUpdateInterval c.
Hypothesis Hs : 1 <= pcStopInterval c.
Hypothesis Hp : 1 <= pcNumPast c.
Hypothesis Hc : 1 <= pcNumCurrent c.

Definition ev (r : nat) : bool := (pre_offset c <? r) && (r mod pcUpdateInterval c =? 0).

Lemma pre_evaluated_S r : start <= r ->
  pre_evaluated c start (r + 1) = pre_evaluated c start r ++ (if ev r then [r] else []).
Proof.
  intros H. unfold pre_evaluated. replace (r + 1 - start) with (S (r - start)) by lia.
  rewrite filter_seq_snoc. replace (start + (r - start)) with r by lia. auto.
Qed.

Definition bestInv (cands : list nat) (s : preState) : Prop :=
  (cands = [] -> psBestScore s = None) /\
  (cands <> [] -> first_best score cands (psBestNumRules s) /\ psBestScore s = Some (score (psBestNumRules s))).

Definition preInv (r : nat) (s : preState) : Prop :=
  let pts := pre_evaluated c start r in
  let hist := map score pts in
  (psStopped s = true /\ exists r', start <= r' < r /\ must_stop c score start r') \/
  (psStopped s = false /\ (forall r', start <= r' < r -> ~ must_stop c score start r') /\
   psOffset s = pre_offset c /\
   rb_inv (pcNumCurrent c) hist (psRecent s) /\
   rb_inv (pcNumPast c) (firstn (length hist - pcNumCurrent c) hist) (psPast s) /\
   bestInv (skipn (pcNumPast c + pcNumCurrent c) pts) s).

Definition preOut (r : nat) (res : result) : Prop :=
  (must_stop c score start r /\ (forall r', start <= r' < r -> ~ must_stop c score start r') /\
   exists n, res = mkResult (pcRemoveUnused c) n /\ first_best score (pre_candidates c start r) n) \/
  ((~ must_stop c score start r \/ exists r', start <= r' < r /\ must_stop c score start r') /\ res = noResult).

Lemma skipn_snoc {A} n (l : list A) x : skipn n (l ++ [x]) = if n <=? length l then skipn n l ++ [x] else [].
Proof.
  rewrite skipn_app. destruct (Nat.leb_spec n (length l)).
  - replace (n - length l) with 0 by lia. auto.
  - rewrite skipn_all2 by lia. replace (n - length l) with (S (n - length l - 1)) by lia. simpl. rewrite skipn_nil. auto.
Qed.

(** Recording a score. *)
Lemma push_ok hist x (past recent : ring Q) :
  rb_inv (pcNumCurrent c) hist recent ->
  rb_inv (pcNumPast c) (firstn (length hist - pcNumCurrent c) hist) past ->
  exists first second recent' past', rb_push recent x = Some ((first, second), recent') /\
    (if first then let* (_, past) := rb_push past second in Some past else Some past) = Some past' /\
    rb_inv (pcNumCurrent c) (hist ++ [x]) recent' /\
    rb_inv (pcNumPast c) (firstn (length (hist ++ [x]) - pcNumCurrent c) (hist ++ [x])) past'.
Proof.
  intros I1 I2. destruct (rb_push_inv (pcNumCurrent c) hist recent x ltac:(lia) I1) as (old & recent' & E & I3 & O).
  exists (rb_full recent), old, recent'. rewrite app_length. simpl length.
  assert (F: rb_full recent = (pcNumCurrent c <=? length hist)) by apply I1. rewrite F in *.
  destruct (Nat.leb_spec (pcNumCurrent c) (length hist)).
  - specialize (O H).
    destruct (rb_push_inv (pcNumPast c) (firstn (length hist - pcNumCurrent c) hist) past old ltac:(lia) I2)
      as (old2 & past' & E2 & I4 & _).
    exists past'. split; auto. split; [rewrite E2; auto|]. split; auto.
    replace (length hist + 1 - pcNumCurrent c) with (S (length hist - pcNumCurrent c)) by lia.
    rewrite firstn_app. replace (S (length hist - pcNumCurrent c) - length hist) with 0 by lia.
    rewrite firstn_O, app_nil_r. rewrite (firstn_S_nth _ _ _ O). auto.
  - exists past. split; auto. split; auto. split; auto.
    replace (length hist + 1 - pcNumCurrent c) with 0 by lia.
    replace (length hist - pcNumCurrent c) with 0 in I2 by lia. auto.
Qed.

Lemma must_stop_decide r past recent a b :
  let hist := map score (pre_evaluated c start r) in
  windows_full c start r -> r mod pcStopInterval c = 0 ->
  rb_inv (pcNumCurrent c) hist recent ->
  rb_inv (pcNumPast c) (firstn (length hist - pcNumCurrent c) hist) past ->
  is_aggregate (pcAggregation c) (rb_elements past) a -> is_aggregate (pcAggregation c) (rb_elements recent) b ->
  (must_stop c score start r <-> improvement_below a b (pcMinImprovement c)).
Proof.
  intros hist W M I1 I2 A1 A2.
  assert (Lh: pcNumPast c + pcNumCurrent c <= length hist).
  { destruct W as (_ & _ & W). unfold hist. rewrite map_length. auto. }
  apply rb_elements_perm in I1, I2. rewrite lastn_firstn in I2 by auto.
  apply (aggregate_perm _ _ _ _ I2) in A1. apply (aggregate_perm _ _ _ _ I1) in A2.
  assert (N1: lastn (pcNumCurrent c) hist <> []).
  { intros E. apply (f_equal (@length Q)) in E. unfold lastn in E. rewrite skipn_length in E. simpl in E. lia. }
  assert (N2: firstn (pcNumPast c) (lastn (pcNumPast c + pcNumCurrent c) hist) <> []).
  { intros E. apply (f_equal (@length Q)) in E. unfold lastn in E. rewrite firstn_length, skipn_length in E. simpl in E.
    lia. }
  split.
  - intros (_ & _ & a' & b' & A1' & A2' & H). fold hist in A1', A2'.
    apply (improvement_proper a' a b' b); auto; [eapply (aggregate_unique _ _ _ _ N2)|eapply (aggregate_unique _ _ _ _ N1)];
      eauto.
  - intros H. split; auto. split; auto. exists a, b. auto.
Qed.

Lemma pre_step r s : start <= r -> preInv r s ->
  exists res s', preTest c (score r) r s = Some (res, s') /\ preInv (r + 1) s' /\ preOut r res.
Proof.
  intros Hr I. unfold preTest. destruct (Nat.eqb_spec (pcUpdateInterval c) 0); [lia|].
  set (pts := pre_evaluated c start r). set (hist := map score pts).
  assert (Lh: length hist = length pts) by apply map_length.
  destruct I as [(St & r' & Hr' & Ms)|(St & NoMs & Off & I1 & I2 & Ib)].
  { rewrite St. simpl. exists noResult, s. split; auto. split.
    - left. split; auto. exists r'. split; auto. lia.
    - right. split; auto. right. exists r'. auto. }
  rewrite St, Off. cbn [negb]. rewrite andb_true_l. fold (ev r).
  pose proof (pre_evaluated_S r Hr) as Pr. fold pts in Pr.
  destruct (ev r) eqn:Ev.
  2: { exists noResult, s. split; auto. rewrite app_nil_r in Pr.
       assert (NM: ~ must_stop c score start r).
       { intros ((W1 & W2 & _) & _). unfold ev in Ev. apply andb_false_iff in Ev as [Ev|Ev].
         - apply Nat.ltb_ge in Ev. lia.
         - apply Nat.eqb_neq in Ev. lia. }
       split; [|right; auto]. right. rewrite Pr. split; auto. split.
       - intros r' H. destruct (Nat.eq_dec r' r) as [->|]; auto. apply NoMs. lia.
       - split; auto. }
  assert (Epts: forall P : Prop, (pcNumPast c + pcNumCurrent c <= length pts -> P) ->
    (length pts < pcNumPast c + pcNumCurrent c -> P) -> P).
  { intros P Ha Hb. destruct (Nat.le_gt_cases (pcNumPast c + pcNumCurrent c) (length pts)); auto. }
  assert (Fp: rb_full (psPast s) = (pcNumPast c + pcNumCurrent c <=? length pts)).
  { destruct I2 as (_ & _ & F & _). rewrite F, firstn_length. fold pts. fold hist. rewrite Lh.
    destruct (Nat.leb_spec (pcNumPast c) (Nat.min (length pts - pcNumCurrent c) (length pts)));
    destruct (Nat.leb_spec (pcNumPast c + pcNumCurrent c) (length pts)); auto; lia. }
  rewrite Fp.
  assert (Wf: pcNumPast c + pcNumCurrent c <= length pts -> windows_full c start r).
  { intros H. unfold ev in Ev. apply andb_prop in Ev as (E1 & E2). apply Nat.ltb_lt in E1. apply Nat.eqb_eq in E2.
    split; auto. }
  assert (Hist1: map score (pre_evaluated c start (r + 1)) = hist ++ [score r]).
  { rewrite Pr, map_app. auto. }
  destruct (push_ok hist (score r) _ _ I1 I2) as (fst1 & old & recent' & past' & E1 & E2 & I1' & I2').
  destruct (Nat.leb_spec (pcNumPast c + pcNumCurrent c) (length pts)) as [Hf|Hf].
  - (* both windows are full *)
    set (s1 := if isBetter (score r) (psBestScore s)
               then mkPreState (psPast s) (psRecent s) (pre_offset c) (Some (score r)) r false else s).
    assert (S1: psPast s1 = psPast s /\ psRecent s1 = psRecent s /\ psOffset s1 = pre_offset c /\
                psStopped s1 = false).
    { unfold s1. destruct (isBetter (score r) (psBestScore s)); auto. }
    assert (B1: bestInv (skipn (pcNumPast c + pcNumCurrent c) (pts ++ [r])) s1).
    { rewrite skipn_snoc. destruct (Nat.leb_spec (pcNumPast c + pcNumCurrent c) (length pts)); [|lia].
      unfold bestInv. split; [intros H0; destruct (skipn _ pts); discriminate|]. intros _.
      destruct Ib as (Ib1 & Ib2). fold pts in Ib1, Ib2.
      destruct (skipn (pcNumPast c + pcNumCurrent c) pts) as [|y ys] eqn:Ey.
      - unfold s1. rewrite (Ib1 eq_refl). simpl. split; auto. apply first_best_one.
      - destruct Ib2 as (Ib2 & Ib3); [discriminate|]. pose proof (first_best_snoc _ _ _ r Ib2) as Bs.
        unfold s1. rewrite Ib3. simpl isBetter. destruct (Qlt_le_dec (score r) (score (psBestNumRules s))); simpl; auto. }
    destruct (Nat.eqb_spec (pcStopInterval c) 0); [lia|].
    destruct S1 as (S1 & S2 & S3 & S4). cbv zeta. rewrite ?S1, ?S2, ?S3.
    destruct (Nat.eqb_spec (r mod pcStopInterval c) 0) as [Hm|Hm].
    + assert (Ne: rb_elements (psPast s) <> [] /\ rb_elements (psRecent s) <> []).
      { pose proof (rb_elements_perm _ _ _ I1) as P1. pose proof (rb_elements_perm _ _ _ I2) as P2.
        fold pts in P1, P2. fold hist in P1, P2.
        split; intros E; rewrite E in *; apply Permutation_length in P1, P2;
          unfold lastn in *; rewrite ?skipn_length, ?firstn_length in *; simpl in *; lia. }
      destruct (aggregate_ok (pcAggregation c) _ (proj1 Ne)) as (a & A1 & A2).
      destruct (aggregate_ok (pcAggregation c) _ (proj2 Ne)) as (b & B2 & B3). rewrite A1, B2.
      pose proof (must_stop_decide r (psPast s) (psRecent s) a b (Wf Hf) Hm I1 I2 A2 B3) as D.
      destruct (insufficientImprovement a b (pcMinImprovement c)) eqn:Ei.
      * apply insufficient_iff in Ei. apply D in Ei. cbv beta iota.
        cbn [psPast psRecent psOffset psBestScore psBestNumRules psStopped]. rewrite ?S1, ?S2. rewrite E1. cbv beta iota.
        rewrite E2. eexists. eexists. split; [reflexivity|]. split.
        -- left. cbn [psStopped]. split; auto. exists r. split; auto. lia.
        -- left. split; auto. split; auto. eexists. split; [reflexivity|].
           unfold pre_candidates. rewrite Pr. apply B1. rewrite skipn_snoc.
           destruct (Nat.leb_spec (pcNumPast c + pcNumCurrent c) (length pts)); [|lia].
           destruct (skipn _ pts); discriminate.
      * assert (NM: ~ must_stop c score start r).
        { intros H. apply D in H. apply insufficient_iff in H. congruence. }
        cbv beta iota. rewrite ?S1, ?S2. rewrite E1. cbv beta iota. rewrite E2.
        eexists. eexists. split; [reflexivity|]. split; [|right; auto].
        right. cbn [psPast psRecent psOffset psBestScore psBestNumRules psStopped]. rewrite ?S4, ?S3, Hist1.
        split; auto. split. { intros r' H. destruct (Nat.eq_dec r' r) as [->|]; auto. apply NoMs. lia. }
        split; auto. split; auto. split; auto. rewrite Pr. exact B1.
    + assert (NM: ~ must_stop c score start r) by (intros (_ & H & _); contradiction).
      cbv beta iota. rewrite ?S1, ?S2. rewrite E1. cbv beta iota. rewrite E2.
      eexists. eexists. split; [reflexivity|]. split; [|right; auto].
      right. cbn [psPast psRecent psOffset psBestScore psBestNumRules psStopped]. rewrite ?S4, ?S3, Hist1.
      split; auto. split. { intros r' H. destruct (Nat.eq_dec r' r) as [->|]; auto. apply NoMs. lia. }
      split; auto. split; auto. split; auto. rewrite Pr. exact B1.
  - assert (NM: ~ must_stop c score start r) by (intros ((_ & _ & H) & _); fold pts in H; lia).
    cbv beta iota. rewrite E1. cbv beta iota. rewrite E2.
    eexists. eexists. split; [reflexivity|]. split; [|right; auto].
    right. cbn [psPast psRecent psOffset psBestScore psBestNumRules psStopped]. rewrite Hist1.
    split; auto. split. { intros r' H. destruct (Nat.eq_dec r' r) as [->|]; auto. apply NoMs. lia. }
    split; auto. split; auto. split; auto. rewrite Pr.
    rewrite skipn_snoc. destruct (Nat.leb_spec (pcNumPast c + pcNumCurrent c) (length pts)); [lia|].
    destruct Ib as (Ib1 & _). fold pts in Ib1. split; [|intros H0; contradiction].
    intros _. simpl. apply Ib1. apply skipn_all2. lia.
Qed.

Lemma pre_run cnt junkPast junkRecent junkBest :
  length junkPast = pcNumPast c -> length junkRecent = pcNumCurrent c ->
  exists rs st,
    runTests (fun n => preTest c (score n) n) cnt start (preInit c junkPast junkRecent junkBest) = Some (rs, st) /\
    length rs = cnt /\ forall i r, nth_error rs i = Some r -> preOut (start + i) r.
Proof.
  intros L1 L2.
  destruct (runTests_inv (fun n => preTest c (score n) n) preInv preOut start pre_step cnt
    (preInit c junkPast junkRecent junkBest)) as (rs & st & E & L & _ & O); [|eauto].
  right. unfold preInit, pre_evaluated. rewrite Nat.sub_diag. simpl.
  split; auto. split; [intros; lia|].
  split. { unfold pre_offset. rewrite Nat.mul_add_distr_r.
    destruct (Nat.ltb_spec (pcNumPast c * pcUpdateInterval c + pcNumCurrent c * pcUpdateInterval c) (pcMinRules c)); lia. }
  split. { rewrite <- L2. apply rb_init_inv. lia. }
  split. { rewrite <- L1. apply rb_init_inv. lia. }
  rewrite skipn_nil. split; auto. intros H; contradiction.
Qed.

(** A sufficient number of rules has been learned whenever the windows are full. *)
Lemma windows_full_min r : windows_full c start r -> pcMinRules c < r.
Proof.
  intros (W1 & W2 & W3).
  set (u := pcUpdateInterval c) in *. set (o := pre_offset c) in *. set (n := pcNumPast c + pcNumCurrent c) in *.
  assert (Nd: NoDup (pre_evaluated c start r)) by (apply NoDup_filter, seq_NoDup).
  assert (Hin: incl (map (fun x => x / u) (pre_evaluated c start r)) (seq (o / u + 1) (r / u - (o / u + 1)))).
  { intros q Hq. apply in_map_iff in Hq as (x & <- & Hx). apply filter_In in Hx as (Hx & He).
    apply in_seq in Hx. apply andb_prop in He as (He1 & He2). apply Nat.ltb_lt in He1. apply Nat.eqb_eq in He2.
    fold u in He2. fold o in He1. apply in_seq.
    pose proof (Nat.div_mod x u ltac:(lia)) as D1. pose proof (Nat.div_mod r u ltac:(lia)) as D2.
    pose proof (Nat.div_mod o u ltac:(lia)) as D3. pose proof (Nat.mod_upper_bound o u ltac:(lia)).
    rewrite He2 in D1. rewrite W2 in D2.
    assert (o / u < x / u) by nia. assert (x / u < r / u) by nia. lia. }
  assert (Nd2: NoDup (map (fun x => x / u) (pre_evaluated c start r))).
  { assert (Hall: forall x, In x (pre_evaluated c start r) -> x mod u = 0).
    { intros x Hx. apply filter_In in Hx as (_ & He). apply andb_prop in He as (_ & He). apply Nat.eqb_eq in He. auto. }
    clear -Nd Hall Hu. fold u in Hu. induction (pre_evaluated c start r) as [|x l IH]; simpl; constructor.
    - intros Hq. apply in_map_iff in Hq as (y & E & Hy). inversion Nd; subst. apply H1.
      pose proof (Nat.div_mod x u ltac:(lia)) as D1. pose proof (Nat.div_mod y u ltac:(lia)) as D2.
      rewrite (Hall x) in D1 by (left; auto). rewrite (Hall y) in D2 by (right; auto).
      assert (x = y) by (rewrite E in D2; lia). subst. auto.
    - inversion Nd; subst. apply IH; auto. intros y Hy. apply Hall. right. auto. }
  pose proof (NoDup_incl_length Nd2 Hin) as Le. rewrite map_length, seq_length in Le.
  pose proof (Nat.div_mod r u ltac:(lia)) as D2. pose proof (Nat.div_mod o u ltac:(lia)) as D3.
  pose proof (Nat.mod_upper_bound o u ltac:(lia)). rewrite W2 in D2.
  assert (Hn: 1 <= n) by (unfold n; lia).
  assert (G: n + o / u + 1 <= r / u) by lia.
  assert (G2: u * (n + o / u + 1) <= u * (r / u)) by (apply Nat.mul_le_mono_l; auto).
  assert (pcMinRules c <= o + n * u) by (unfold o, pre_offset, n, u; lia).
  nia.
Qed.

End Pre.

Lemma C26_lemma (c : preConfig) (score : nat -> Q) (start cnt : nat) (junkPast junkRecent : list Q) (junkBest : nat) :
  1 <= pcUpdateInterval c -> 1 <= pcStopInterval c -> 1 <= pcNumPast c -> 1 <= pcNumCurrent c ->
  length junkPast = pcNumPast c -> length junkRecent = pcNumCurrent c ->
  exists rs st,
    runTests (fun n => preTest c (score n) n) cnt start (preInit c junkPast junkRecent junkBest) = Some (rs, st) /\
    length rs = cnt /\
    (forall i res, nth_error rs i = Some res ->
       let r := start + i in
       (must_stop c score start r /\ (forall r', start <= r' < r -> ~ must_stop c score start r') /\
        exists n, res = mkResult (pcRemoveUnused c) n /\ first_best score (pre_candidates c start r) n) \/
       ((~ must_stop c score start r \/ exists r', start <= r' < r /\ must_stop c score start r') /\ res = noResult)) /\
    (forall r, must_stop c score start r -> pcMinRules c < r).
Proof.
  intros H1 H2 H3 H4 H5 H6.
  destruct (pre_run c score start H1 H2 H3 H4 cnt junkPast junkRecent junkBest H5 H6) as (rs & st & E & L & O).
  exists rs, st. split; auto. split; auto. split.
  - intros i res Hi. apply O in Hi. exact Hi.
  - intros r (W & _). eapply windows_full_min; eauto.
Qed.

(** ** Time- and size-based criteria *)

Lemma time_lemma (limit : Z) (clock : nat -> Z) (start cnt : nat) :
  (1 <= limit)%Z -> (forall i j : nat, i <= j -> (clock i <= clock j)%Z) ->
  let test n st := let '(r, st) := timeTest limit (clock n) st in Some (r, st) in
  exists rs st, runTests test cnt start None = Some (rs, st) /\ length rs = cnt /\
    forall i r, nth_error rs i = Some r ->
      (rStop r = true <-> (clock (start + i)%nat - clock start >= limit * 1000000000)%Z) /\ rNumUsed r = 0.
Proof.
  intros Hl Hc test.
  destruct (runTests_inv test
    (fun n st => if n =? start then st = None \/ st = Some (clock start) else st = Some (clock start))
    (fun n r => (rStop r = true <-> clock n - clock start >= limit * 1000000000)%Z /\ rNumUsed r = 0) start) with
    (cnt := cnt) (st := @None Z) as (rs & st & E & L & _ & O).
  - intros n st Hn I. unfold test, timeTest.
    assert (Hst: st = None /\ n = start \/ st = Some (clock start)).
    { destruct (Nat.eqb_spec n start); [destruct I|]; auto. }
    destruct Hst as [(-> & ->)| -> ].
    + eexists. eexists. split; [reflexivity|]. split.
      * destruct (Nat.eqb_spec (start + 1) start); [lia|auto].
      * simpl. split; auto. split; [discriminate|]. lia.
    + eexists. eexists. split; [reflexivity|]. split.
      * destruct (Nat.eqb_spec (n + 1) start); [lia|auto].
      * specialize (Hc start n Hn). rewrite Z.quot_div_nonneg by lia.
        pose proof (Z.div_mod (clock n - clock start) 1000000000 ltac:(lia)).
        pose proof (Z.mod_pos_bound (clock n - clock start) 1000000000 ltac:(lia)).
        destruct (Z.leb_spec limit ((clock n - clock start) / 1000000000)); simpl; split; auto; split; auto;
          try discriminate; nia.
  - rewrite Nat.eqb_refl. auto.
  - exists rs, st. auto.
Qed.

Lemma listTest_inv {E C} (test : E -> nat -> C -> option (result * C)) e n cs r cs' :
  listTest test e n cs = Some (r, cs') ->
  exists outcomes, Forall2 (fun c o => test e n c = Some o) cs outcomes.
Proof.
  intros H. unfold listTest in H.
  (* each prefix of the criteria has been tested successfully *)
  revert H. match goal with |- forN _ _ ?body _ = _ -> _ => set (f := body) end.
  assert (G: forall k pre rest r0, length rest = k ->
    forN k (length pre) f (r0, pre ++ rest) = Some (r, cs') ->
    exists outcomes, Forall2 (fun c o => test e n c = Some o) rest outcomes).
  { induction k as [|k IH]; intros pre rest r0 Hk H.
    - destruct rest; [|discriminate]. exists []. constructor.
    - destruct rest as [|c rest]; [discriminate|]. simpl in Hk. simpl in H. unfold f in H at 1.
      unfold aget in H. rewrite nth_error_app2, Nat.sub_diag in H by lia. simpl in H.
      destruct (test e n c) as [[cr c']|] eqn:Et; [|discriminate].
      rewrite aset_Some in H by (rewrite app_length; simpl; lia).
      rewrite upd_app2, Nat.sub_diag in H by lia. simpl in H.
      specialize (IH (pre ++ [c']) rest (mkResult (rStop r0 || rStop cr)
        (if negb (rNumUsed cr =? 0) then rNumUsed cr else rNumUsed r0)) ltac:(lia)).
      rewrite app_length in IH. simpl in IH. rewrite Nat.add_1_r in IH. rewrite <- app_assoc in IH. simpl in IH.
      destruct (IH H) as (os & Hos). exists ((cr, c') :: os). constructor; auto. }
  intros H. eapply (G (length cs) [] cs); eauto.
Qed.

Lemma Forall2_In_l {A B} (P : A -> B -> Prop) l1 l2 x : Forall2 P l1 l2 -> In x l1 -> exists y, In y l2 /\ P x y.
Proof.
  induction 1; intros Hin; destruct Hin.
  - subst. exists y. split; auto. left; auto.
  - destruct (IHForall2 H1) as (z & Hz & Pz). exists z. split; auto. right; auto.
Qed.

Lemma list_size {T} (m : nat) (envOf : T -> env) (t : T) n (cs : list crit) r cs' : In (CSize m) cs ->
  listTest critTest (envOf t) n cs = Some (r, cs') -> In (CSize m) cs' /\ (m <= n -> rStop r = true).
Proof.
  intros Hin H. destruct (listTest_inv _ _ _ _ _ _ H) as (os & Hos).
  rewrite (C23_lemma _ _ _ _ _ Hos) in H. injection H as <- <-.
  destruct (Forall2_In_l _ _ _ _ Hos Hin) as (o & Ho & E). simpl in E. injection E as <-.
  split.
  - apply in_map_iff. exists (sizeTest m n, CSize m). auto.
  - intros Hmn. simpl. apply existsb_exists. exists (sizeTest m n, CSize m). split; auto. simpl. unfold sizeTest.
    destruct (Nat.leb_spec m n); auto; lia.
Qed.

Lemma C24_lemma {R T} (m : nat) (criteria : list crit) (envOf : T -> env) (induce : T -> option R * T)
  (default : option R) (t : T) :
  1 <= m -> In (CSize m) criteria ->
  let test t n cs := listTest critTest (envOf t) n cs in
  induceRules test induce (m + 1) default t criteria bEmpty <> Some None /\
  (forall fuel b t', induceRules test induce fuel default t criteria bEmpty = Some (Some (b, t')) ->
     bGetNumRules b <= m).
Proof.
  intros Hm Hin test. split.
  - unfold induceRules. set (n0 := match default with Some _ => 1 | None => 0 end).
    assert (n0 <= 1) by (unfold n0; destruct default; lia).
    set (b0 := match default with Some r => _ | None => _ end).
    pose proof (induceLoop_bounded test induce (fun cs => In (CSize m) cs) m
      (fun t n cs r cs' H1 H2 => list_size m envOf t n cs r cs' H1 H2) (m + 1) t criteria n0 0 b0 Hin
      ltac:(lia) ltac:(lia)) as B.
    destruct (induceLoop test induce (m + 1) t criteria n0 0 b0) as [[[[b1 u1] t1]|]|]; congruence.
  - intros fuel b t' H. apply C42_lemma in H as (ts & cs & rules & results & H1 & H2 & H3 & H4 & ->).
    pose proof (run_bounded test induce (fun cs => In (CSize m) cs) m (match default with Some _ => 1 | None => 0 end) ts cs rules results t'
      (fun t n cs r cs' H1 H2 => list_size m envOf t n cs r cs' H1 H2)) as B.
    rewrite H3 in B. specialize (B Hin). specialize (B ltac:(destruct default; lia) H4).
    unfold bGetNumRules. simpl. destruct default; simpl; lia.
Qed.

Lemma C24_exact_lemma {R T} (m : nat) (envOf : T -> env) (induce : T -> option R * T) (default : option R) (t : T) :
  1 <= m -> (forall t, exists rule t', induce t = (Some rule, t')) ->
  exists b t', induceRules (fun t n cs => listTest critTest (envOf t) n cs) induce (m + 1) default t [CSize m] bEmpty =
    Some (Some (b, t')) /\ bGetNumRules b = m /\ bNumUsed b = 0.
Proof.
  intros Hm Hi. unfold induceRules. set (n0 := match default with Some _ => 1 | None => 0 end).
  assert (Hn0: n0 <= 1) by (unfold n0; destruct default; lia).
  set (b0 := match default with Some r => _ | None => _ end).
  assert (B0: bGetNumRules b0 = n0) by (unfold b0, n0; destruct default; auto).
  assert (Ht: forall t n, listTest critTest (envOf t) n [CSize m] = Some (sizeTest m n, [CSize m])).
  { intros t0 n. unfold listTest. simpl. unfold sizeTest. destruct (Nat.leb_spec m n); auto. }
  assert (G: forall fuel t n b, bGetNumRules b = n -> n <= m -> m < n + fuel ->
    exists b' t', induceLoop (fun t n cs => listTest critTest (envOf t) n cs) induce fuel t [CSize m] n 0 b =
      Some (Some (b', 0, t')) /\ bGetNumRules b' = m).
  { induction fuel as [|fuel IH]; intros t0 n b Hb Hn Hf; [lia|]. cbn [induceLoop]. rewrite Ht.
    unfold sizeTest. destruct (Nat.leb_spec m n).
    - simpl. exists b, t0. split; auto. lia.
    - simpl. destruct (Hi t0) as (rule & t1 & ->). apply IH; try lia.
      unfold bGetNumRules, bAddRule in *. simpl. rewrite app_length. simpl. lia. }
  destruct (G (m + 1) t n0 b0 B0 ltac:(lia) ltac:(lia)) as (b' & t' & E & L). rewrite E.
  eexists. eexists. split; [reflexivity|]. split; auto.
Qed.

(** ** Training with post-pruning *)

Lemma Forall2_app_l {A B} (P : A -> B -> Prop) l1 l2 l : Forall2 P (l1 ++ l2) l ->
  exists l1' l2', l = l1' ++ l2' /\ Forall2 P l1 l1' /\ Forall2 P l2 l2'.
Proof.
  revert l. induction l1 as [|a l1 IH]; intros l H; simpl in H.
  - exists [], l. auto.
  - inversion H as [|a' o l0 l' Ha Hl]; subst. destruct (IH _ Hl) as (x & y & -> & Hx & Hy). exists (o :: x), y. auto.
Qed.

Lemma silent_outcomes e n l os : Forall silent l -> Forall2 (fun c o => critTest e n c = Some o) l os ->
  Forall silent (map snd os) /\ last_reported (map (fun o => rNumUsed (fst o)) os) = 0.
Proof.
  intros Hs H. induction H as [|c o l os Hc H IH]; [split; auto; constructor|].
  inversion Hs; subst. destruct (IH H3) as (I1 & I2). simpl. rewrite I2. simpl.
  destruct c; simpl in *; try contradiction.
  - injection Hc as <-. simpl. split; [constructor; simpl; auto|]. unfold sizeTest. destruct (maxRules <=? n); auto.
  - destruct (timeTest timeLimit (eNow e) started) as [r st] eqn:E. injection Hc as <-. simpl.
    split; [constructor; simpl; auto|]. unfold timeTest in E. destruct started; injection E as <- <-; auto.
    destruct (_ <=? _)%Z; auto.
Qed.

Lemma C25_training_lemma {R T} (p : partition) (h : bool) (minRules interval : nat) (l1 l2 : list crit)
  (envOf : T -> env) (induce : T -> option R * T) (default : option R) (t : T) (fuel : nat) (b : builder R) (t' : T) :
  1 <= minRules -> 1 <= interval -> Forall silent l1 -> Forall silent l2 ->
  induceRules (fun t n cs => listTest critTest (envOf t) n cs) induce fuel default t
    (l1 ++ CPost p h minRules interval (postInit minRules) :: l2) bEmpty = Some (Some (b, t')) ->
  exists ts : nat -> T, ts 0 = t /\
    (forall i rule, nth_error (bRules b) i = Some rule -> induce (ts i) = (Some rule, ts (i + 1))) /\
    forall score : nat -> Q,
      let n0 := match default with Some _ => 1 | None => 0 end in
      (forall i, i <= length (bRules b) ->
         evaluatePartition p h (eEvaluatePrediction (envOf (ts i))) = Some (score (n0 + i))) ->
      let evaluated := post_evaluated minRules interval n0 (length (bRules b) + 1) in
      (evaluated = [] -> bNumUsed b = 0) /\ (evaluated <> [] -> first_best score evaluated (bNumUsed b)).
Proof.
  intros Hm Hv S1 S2 H. apply C42_lemma in H as (ts & cs & rules & results & H1 & H2 & H3 & H4 & ->).
  set (n0 := match default with Some _ => 1 | None => 0 end) in *. simpl bRules. rewrite app_nil_l.
  exists ts. split; auto. destruct H4 as (A1 & A2 & A3 & A4). split.
  { intros i rule Hi. apply A3 in Hi. apply Hi. }
  intros score n1. subst n1. fold n0. intros Hsc evaluated.
  destruct (C25_lemma minRules interval score n0 (length rules + 1) Hm Hv) as (rs & st & E & L & _ & K1 & K2).
  fold evaluated in K1, K2. simpl bNumUsed.
  assert (G: last_reported (map rNumUsed results) = last_reported (map rNumUsed rs)).
  { assert (G: forall k, k <= length rules + 1 -> exists rs st l1' l2',
      runTests (fun n => postTest minRules interval (score n) n) k n0 (postInit minRules) = Some (rs, st) /\
      map rNumUsed (firstn k results) = map rNumUsed rs /\
      cs k = l1' ++ CPost p h minRules interval st :: l2' /\ Forall silent l1' /\ Forall silent l2').
    { induction k as [|k IH]; intros Hk.
      - exists [], (postInit minRules), l1, l2. split; [reflexivity|]. auto.
      - destruct (IH ltac:(lia)) as (rs0 & st0 & l1' & l2' & B1 & B2 & B3 & B4 & B5).
        destruct (nth_error results k) as [r|] eqn:Er; [|apply nth_error_None in Er; lia].
        pose proof (A2 _ _ Er) as Et. rewrite B3 in Et.
        destruct (listTest_inv _ _ _ _ _ _ Et) as (os & Hos). rewrite (C23_lemma _ _ _ _ _ Hos) in Et.
        apply Forall2_app_l in Hos as (os1 & os2 & -> & O1 & O2).
        inversion O2 as [|c0 o0 cl ol Oc O3]; subst. simpl in Oc. rewrite Hsc in Oc by lia.
        destruct (postTest minRules interval (score (n0 + k)) (n0 + k) st0) as [[pr st1]|] eqn:Ep; [|discriminate].
        injection Oc as <-.
        destruct (silent_outcomes _ _ _ _ B4 O1) as (Q1 & Q2). destruct (silent_outcomes _ _ _ _ B5 O3) as (Q3 & Q4).
        injection Et as Er' Ecs. rewrite Nat.add_1_r in Ecs.
        exists (rs0 ++ [pr]), st1, (map snd os1), (map snd ol).
        rewrite runTests_snoc, B1, Ep. split; auto. split; [|split; auto].
        + rewrite (firstn_S_nth _ _ _ Er), !map_app, B2. f_equal. simpl. f_equal.
          rewrite <- Er'. simpl. rewrite map_app, last_reported_app. simpl. rewrite Q4. simpl. rewrite Q2.
          destruct (Nat.eqb_spec (rNumUsed pr) 0); auto.
        + rewrite <- Ecs, map_app. auto. }
    destruct (G (length rules + 1) ltac:(lia)) as (rs' & st' & l1' & l2' & B1 & B2 & _).
    rewrite E in B1. injection B1 as <- <-. rewrite <- A1, firstn_all in B2. rewrite B2. auto. }
  rewrite G. auto.
Qed.
