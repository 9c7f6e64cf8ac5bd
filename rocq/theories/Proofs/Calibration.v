(** Elimination of duplicate thresholds, fitting and calibration. *)
From Coq Require Import ZArith QArith Qabs Qminmax Arith List Bool Lia Lqa Sorted Permutation.
From Verif Require Import Lib.Arr Model.Stopping Model.Isotonic Spec.Stopping Spec.Isotonic Proofs.Stopping Proofs.Pruning
  Proofs.Isotonic.
Import ListNotations.
Open Scope nat_scope.

Lemma isEqualQ_refl a b : (a == b)%Q -> isEqualQ a b = true.
Proof.
  intros H. unfold isEqualQ. destruct (Qlt_le_dec _ _) as [Q|Q]; auto. exfalso.
  rewrite H in Q. setoid_replace (b - b)%Q with 0%Q in Q by ring.
  assert (HM : (1 <= Qmax 1 (Qmax (Qabs a) (Qabs b)))%Q) by apply Q.le_max_l. change (Qabs 0) with 0%Q in Q.
  rewrite <- H in Q.
  assert (HM' : (1 <= Qmax 1 (Qmax (Qabs a) (Qabs a)))%Q) by apply Q.le_max_l. lra.
Qed.

Fixpoint dedupF (prev : bin) (k : nat) (last : bin) (rest : list bin) : list bin :=
  match rest with
  | [] => [last]
  | b :: rest =>
      if isEqualQ (fst b) (fst prev)
      then dedupF (fst prev, iterativeArithmeticMean (k + 1) (snd b) (snd prev)) (k + 1) b rest
      else prev :: dedupF b 1 b rest
  end.

Lemma eliminate_loop rest : forall out mid last pi prev k,
  let arr := out ++ (mid ++ [last]) ++ rest in
  let j := length (out ++ mid ++ [last]) in
  pi + k = j -> 1 <= k ->
  (let* (bins, n, previousIndex, previousBin) :=
    forN (length rest) j (fun j '(bins, n, previousIndex, previousBin) =>
      let* currentBin := aget bins j in
      if isEqualQ (fst currentBin) (fst previousBin) then
        let numAggregated := j - previousIndex + 1 in
        Some (bins, n, previousIndex,
              (fst previousBin, iterativeArithmeticMean numAggregated (snd currentBin) (snd previousBin)))
      else
        let* bins := aset bins n previousBin in
        let* currentBin := aget bins j in
        Some (bins, n + 1, j, currentBin)) (arr, length out, pi, prev) in
  let* last := aget bins (length arr - 1) in
  let* bins := aset bins n last in
  Some (firstn (n + 1) bins)) = Some (out ++ dedupF prev k last rest).
Proof.
  induction rest as [|b rest IH]; intros out mid last pi prev k arr j Hk Hk1.
  - cbn [length forN]. unfold aget.
    assert (E : nth_error arr (length arr - 1) = Some last).
    { unfold arr. rewrite app_nil_r, app_assoc. rewrite app_length. cbn [length]. rewrite nth_error_app2 by lia.
      replace (length (out ++ mid) + 1 - 1 - length (out ++ mid)) with 0 by lia. reflexivity. }
    rewrite E. rewrite aset_Some.
    2:{ unfold arr. rewrite !app_length. simpl. lia. }
    f_equal. unfold arr. rewrite upd_app2 by lia. rewrite Nat.sub_diag.
    simpl dedupF. rewrite app_nil_r. rewrite <- (firstn_all2 (n:=length out + 1) (out ++ [last])).
    2:{ rewrite app_length. simpl. lia. }
    destruct mid as [|m mid]; simpl; [reflexivity|].
    rewrite (firstn_app (length out + 1) out), (firstn_app (length out + 1) out).
    replace (length out + 1 - length out) with 1 by lia. reflexivity.
  - assert (Hj : nth_error arr j = Some b).
    { unfold arr, j. rewrite app_assoc. rewrite nth_error_app2 by lia. rewrite Nat.sub_diag. reflexivity. }
    cbn [length forN]. unfold aget at 1. rewrite Hj. cbn [dedupF].
    destruct (isEqualQ (fst b) (fst prev)) eqn:EQ.
    + cbv zeta. replace (j - pi + 1) with (k + 1) by lia.
      specialize (IH out (mid ++ [last]) b pi (fst prev, iterativeArithmeticMean (k + 1) (snd b) (snd prev)) (k + 1)).
      cbv zeta in IH.
      replace (out ++ ((mid ++ [last]) ++ [b]) ++ rest) with arr in IH by (unfold arr; rewrite <- !app_assoc; reflexivity).
      replace (length (out ++ (mid ++ [last]) ++ [b])) with (S j) in IH.
      2:{ unfold j. rewrite !app_length. simpl. lia. }
      apply IH; lia.
    + rewrite aset_Some.
      2:{ unfold arr. rewrite !app_length. simpl. lia. }
      assert (exists mid', upd arr (length out) prev = (out ++ [prev]) ++ mid' ++ b :: rest /\ length mid' = length mid) as (mid' & Em & Lm).
      { unfold arr. rewrite upd_app2 by lia. rewrite Nat.sub_diag. destruct mid as [|m mid]; simpl.
        - exists []. split; [rewrite <- app_assoc; reflexivity|reflexivity].
        - exists (mid ++ [last]). split; [rewrite <- !app_assoc; reflexivity|]. rewrite app_length. simpl. lia. }
      unfold aget at 1. rewrite nth_error_upd_neq by (unfold j; rewrite !app_length; simpl; lia). rewrite Hj.
      rewrite Em.
      specialize (IH (out ++ [prev]) mid' b j b 1). cbv zeta in IH.
      rewrite <- !app_assoc in IH. rewrite <- !app_assoc. simpl in IH. simpl.
      replace (length (out ++ prev :: mid' ++ [b])) with (S j) in IH.
      2:{ unfold j. rewrite !app_length. simpl. rewrite !app_length. simpl. lia. }
      replace (length (out ++ [prev])) with (length out + 1) in IH by (rewrite app_length; reflexivity).
      replace (length (out ++ prev :: mid' ++ b :: rest)) with (length arr) in IH.
      2:{ unfold arr. rewrite !app_length. simpl. rewrite !app_length. simpl. lia. }
      rewrite <- IH; try lia. reflexivity.
Qed.

Lemma eliminate_eq b rest : eliminateDuplicates (b :: rest) = Some (dedupF b 1 b rest).
Proof.
  pose proof (eliminate_loop rest [] [] b 0 b 1) as H. cbv zeta in H. cbn [app length] in H.
  unfold eliminateDuplicates. cbn [aget nth_error]. cbn [length]. rewrite Nat.sub_succ, Nat.sub_0_r.
  rewrite Nat.sub_succ, Nat.sub_0_r in H. apply H; lia.
Qed.

(** ** Ranges and order *)
Definition fle (a b : bin) : Prop := (fst a <= fst b)%Q.
Definition flt (a b : bin) : Prop := (fst a < fst b)%Q.

Lemma mean_between n x m lo hi : (lo <= x <= hi)%Q -> (lo <= m <= hi)%Q -> (lo <= iterativeArithmeticMean (n + 1) x m <= hi)%Q.
Proof.
  intros Hx Hm. pose proof (mean_step n x m _ (Qeq_refl _)) as E. rewrite Nat.add_1_r in *. pose proof (inject_pos n) as P.
  rewrite inject_S in E, P.
  assert (N : (0 <= inject_Z (Z.of_nat n))%Q) by (unfold Qle; simpl; lia).
  set (k := inject_Z (Z.of_nat n)) in *. set (r := iterativeArithmeticMean (S n) x m) in *. clearbody k r.
  split.
  - assert (L : (lo * (k + 1) <= r * (k + 1))%Q) by (rewrite E; nra). apply Qmult_le_r in L; auto.
  - assert (L : (r * (k + 1) <= hi * (k + 1))%Q) by (rewrite E; nra). apply Qmult_le_r in L; auto.
Qed.

Lemma dedupF_range rest lo hi : forall prev k last,
  (lo <= snd prev <= hi)%Q -> (lo <= snd last <= hi)%Q -> (forall b, In b rest -> (lo <= snd b <= hi)%Q) ->
  forall b, In b (dedupF prev k last rest) -> (lo <= snd b <= hi)%Q.
Proof.
  induction rest as [|x rest IH]; intros prev k last Hp Hl Hr b Hb; simpl in Hb.
  - destruct Hb as [<-|[]]. auto.
  - pose proof (Hr x (or_introl eq_refl)) as Hx. pose proof (fun b H => Hr b (or_intror H)) as Hr'.
    destruct (isEqualQ _ _).
    + revert Hb. apply IH; auto. simpl. apply mean_between; auto.
    + destruct Hb as [<-|Hb]; auto. revert Hb. apply IH; auto.
Qed.

Lemma dedupF_thresholds rest : forall prev k last,
  forall t, In t (map fst (dedupF prev k last rest)) -> t = fst prev \/ t = fst last \/ In t (map fst rest).
Proof.
  induction rest as [|x rest IH]; intros prev k last t Ht; simpl in Ht.
  - destruct Ht as [<-|[]]. auto.
  - simpl. destruct (isEqualQ _ _).
    + apply IH in Ht. simpl in Ht. destruct Ht as [H|[H|H]]; auto.
    + destruct Ht as [<-|Ht]; auto. apply IH in Ht. destruct Ht as [H|[H|H]]; auto.
Qed.

Lemma dedupF_sorted rest : forall prev k last,
  StronglySorted fle (last :: rest) -> (fst prev <= fst last)%Q ->
  StronglySorted flt (dedupF prev k last rest) /\ Forall (fun b => (fst prev <= fst b)%Q) (dedupF prev k last rest).
Proof.
  induction rest as [|x rest IH]; intros prev k last HS Hp; simpl.
  - repeat constructor. auto.
  - inversion HS as [|? ? HS' HF]; subst. inversion HF as [|? ? Hx HF']; subst. unfold fle in Hx.
    destruct (isEqualQ (fst x) (fst prev)) eqn:E.
    + apply (IH (fst prev, _) (k + 1) x); auto. simpl. lra.
    + destruct (IH x 1 x HS' (Qle_refl _)) as [I1 I2].
      assert (Hlt : (fst prev < fst x)%Q).
      { destruct (Qlt_le_dec (fst prev) (fst x)); auto. exfalso. rewrite isEqualQ_refl in E; [discriminate|]. lra. }
      split.
      * constructor; auto. eapply Forall_impl; [|exact I2]. intros b Hb. unfold flt. simpl in Hb. lra.
      * constructor; [lra|]. eapply Forall_impl; [|exact I2]. intros b Hb. simpl in *. lra.
Qed.

Lemma dedupF_ne rest : forall prev k last, dedupF prev k last rest <> [].
Proof. induction rest; intros; simpl; [discriminate|]. destruct (isEqualQ _ _); auto. discriminate. Qed.

(** ** Means of groups *)
Lemma SS_app_inv {A} (R : A -> A -> Prop) a : forall b, StronglySorted R (a ++ b) ->
  StronglySorted R b /\ forall x y, In x a -> In y b -> R x y.
Proof.
  induction a as [|z a IH]; intros b H; simpl in *.
  - split; auto. intros x y [].
  - inversion H as [|? ? H1 H2]; subst. destruct (IH _ H1) as [I1 I2]. split; auto.
    intros x y [<-|Hx] Hy; auto. rewrite Forall_forall in H2. apply H2. apply in_or_app. auto.
Qed.

Lemma filter_all {A} (f : A -> bool) l : (forall x, In x l -> f x = true) -> filter f l = l.
Proof. induction l; simpl; intros H; auto. rewrite (H a) by auto. f_equal. auto. Qed.
Lemma filter_none {A} (f : A -> bool) l : (forall x, In x l -> f x = false) -> filter f l = [].
Proof. induction l; simpl; intros H; auto. rewrite (H a) by auto. auto. Qed.

Lemma last_cons {A} (l : list A) : forall x d, List.last (x :: l) d = List.last l x.
Proof. induction l as [|y l IH]; intros x d; auto. rewrite (IH y x). rewrite <- (IH y d). reflexivity. Qed.

Lemma dedupF_means whole rest : forall done grp last k prev,
  whole = done ++ grp ++ rest -> StronglySorted fle whole ->
  (forall a b, In a whole -> In b whole -> isEqualQ (fst a) (fst b) = true -> (fst a == fst b)%Q) ->
  (forall b, In b done -> (fst b < fst prev)%Q) -> (exists g0, grp = g0 ++ [last]) ->
  (forall b, In b grp -> (fst b == fst prev)%Q) -> (exists b, In b grp /\ fst b = fst prev) ->
  k = length grp -> (snd prev * inject_Z (Z.of_nat k) == Qsum (map snd grp))%Q ->
  exists init, dedupF prev k last rest = init ++ [List.last rest last] /\
    (forall b, In b init -> is_mean (map snd (sharing whole (fst b))) (snd b)) /\
    (forall b, In b (grp ++ rest) -> exists b', In b' (dedupF prev k last rest) /\ (fst b == fst b')%Q).
Proof.
  induction rest as [|x rest IH]; intros done grp last k prev Hw HS Hsep Hd (g0 & Hg) Hgp (bp & Hbp1 & Hbp2) Hk Hm.
  - exists []. cbn [dedupF]. split; [reflexivity|]. split; [intros b []|]. intros b Hb. rewrite app_nil_r in Hb.
    exists last. split; [left; auto|]. rewrite (Hgp b Hb). symmetry. apply Hgp. rewrite Hg. apply in_or_app. simpl; auto.
  - assert (Hxw : In x whole) by (rewrite Hw, !in_app_iff; simpl; auto).
    assert (Hbw : In bp whole) by (rewrite Hw, !in_app_iff; auto).
    cbn [dedupF]. destruct (isEqualQ (fst x) (fst prev)) eqn:E.
    + rewrite <- Hbp2 in E. apply Hsep in E; auto. rewrite Hbp2 in E.
      destruct (IH done (grp ++ [x]) x (k + 1) (fst prev, iterativeArithmeticMean (k + 1) (snd x) (snd prev)))
        as (init & I1 & I2 & I3); auto.
      * rewrite <- app_assoc. auto.
      * exists grp. auto.
      * intros b Hb. apply in_app_or in Hb. destruct Hb as [Hb|[<-|[]]]; [exact (Hgp b Hb)|exact E].
      * exists bp. split; [apply in_or_app; auto|auto].
      * rewrite app_length. simpl. lia.
      * cbn [snd]. rewrite (mean_step k _ _ _ Hm). rewrite map_app, Qsum_app. simpl. ring.
      * exists init. split.
        -- rewrite I1, last_cons. reflexivity.
        -- split; [exact I2|]. intros b Hb. apply I3. rewrite <- app_assoc. auto.
    + assert (Hgx : forall y, In y (x :: rest) -> (fst prev < fst y)%Q).
      { rewrite Hw in HS. apply SS_app_inv in HS. destruct HS as [HS _]. apply SS_app_inv in HS. destruct HS as [HS1 HS2].
        pose proof (HS2 bp x Hbp1 (or_introl eq_refl)) as Hx. unfold fle in Hx. rewrite Hbp2 in Hx.
        assert (Hlt : (fst prev < fst x)%Q).
        { destruct (Qlt_le_dec (fst prev) (fst x)); auto. exfalso. rewrite isEqualQ_refl in E; [discriminate|]. lra. }
        intros y [<-|Hy]; auto. inversion HS1 as [|? ? HSa HSb]; subst. rewrite Forall_forall in HSb.
        specialize (HSb y Hy). unfold fle in HSb. lra. }
      assert (Hsh : sharing whole (fst prev) = grp).
      { unfold sharing. rewrite Hw, !filter_app.
        rewrite (filter_none _ done), (filter_all _ grp), (filter_none _ (x :: rest)).
        - rewrite app_nil_r. auto.
        - intros y Hy. apply Hgx in Hy. destruct (Qeq_bool (fst y) (fst prev)) eqn:EE; auto. apply Qeq_bool_iff in EE. lra.
        - intros y Hy. apply Qeq_bool_iff. auto.
        - intros y Hy. apply Hd in Hy. destruct (Qeq_bool (fst y) (fst prev)) eqn:EE; auto. apply Qeq_bool_iff in EE. lra. }
      destruct (IH (done ++ grp) [x] x 1 x) as (init & I1 & I2 & I3); auto.
      * rewrite <- app_assoc. auto.
      * intros b Hb. apply in_app_or in Hb. pose proof (Hgx x (or_introl eq_refl)). destruct Hb as [Hb|Hb].
        -- specialize (Hd b Hb). lra.
        -- specialize (Hgp b Hb). lra.
      * exists []. auto.
      * intros b [<-|[]]. reflexivity.
      * exists x. simpl. auto.
      * simpl. change (inject_Z 1) with 1%Q. ring.
      * exists (prev :: init). split; [|split].
        -- rewrite I1, last_cons. reflexivity.
        -- intros b [<-|Hb]; auto. rewrite Hsh. split.
           ++ rewrite Hg, map_app. destruct (map snd g0); discriminate.
           ++ rewrite map_length, <- Hk. auto.
        -- intros b Hb. apply in_app_or in Hb. destruct Hb as [Hb|Hb].
           ++ exists prev. split; [left; auto|auto].
           ++ destruct (I3 b) as (b' & B1 & B2); auto. exists b'. split; [right|]; auto.
Qed.

Lemma sorted_SS l : thresholds_sorted l -> StronglySorted fle l.
Proof.
  induction l as [|x l IH]; intros H; constructor.
  - apply IH. intros i j a b Hij Ha Hb. apply (H (S i) (S j) a b); [lia|exact Ha|exact Hb].
  - apply Forall_forall. intros y Hy. apply In_nth_error in Hy. destruct Hy as (k & Hk).
    apply (H 0 (S k) x y); [lia|reflexivity|exact Hk].
Qed.

Lemma SS_nth {A} (R : A -> A -> Prop) l : StronglySorted R l ->
  forall i j a b, i < j -> nth_error l i = Some a -> nth_error l j = Some b -> R a b.
Proof.
  induction 1 as [|x l HS IH HF]; intros i j a b Hij Ha Hb.
  - destruct i; discriminate.
  - destruct j; [lia|]. destruct i; simpl in *.
    + injection Ha as <-. rewrite Forall_forall in HF. apply HF. eapply nth_error_In; eauto.
    + apply (IH i j a b); [lia|exact Ha|exact Hb].
Qed.

(** All but the last threshold are associated with means. *)
Lemma eliminate_means sorted : sorted <> [] -> thresholds_sorted sorted ->
  (forall a b, In a sorted -> In b sorted -> isEqualQ (fst a) (fst b) = true -> (fst a == fst b)%Q) ->
  exists init b0, eliminateDuplicates sorted = Some (init ++ [List.last sorted b0]) /\
    thresholds_increasing (init ++ [List.last sorted b0]) /\
    (forall b, In b init -> is_mean (map snd (sharing sorted (fst b))) (snd b)) /\
    (forall b, In b sorted -> exists b', In b' (init ++ [List.last sorted b0]) /\ (fst b == fst b')%Q).
Proof.
  intros Hne HS Hsep. destruct sorted as [|b0 rest]; [congruence|]. apply sorted_SS in HS.
  destruct (dedupF_means (b0 :: rest) rest [] [b0] b0 1 b0) as (init & I1 & I2 & I3); auto.
  - intros b [].
  - exists []. auto.
  - intros b [<-|[]]. reflexivity.
  - exists b0. simpl. auto.
  - simpl. change (inject_Z 1) with 1%Q. ring.
  - pose proof (dedupF_sorted rest b0 1 b0 HS (Qle_refl _)) as [HD _].
    exists init, b0. rewrite eliminate_eq. simpl in I3.
    replace (List.last (b0 :: rest) b0) with (List.last rest b0) by (symmetry; apply last_cons).
    rewrite I1 in *. split; [reflexivity|]. split.
    + intros i j a b Hij Ha Hb. exact (SS_nth _ _ HD i j a b Hij Ha Hb).
    + split; auto.
Qed.

(** ** Fitting *)
Section PooledInd.
Context (P : list bin -> bin -> Prop).
Hypothesis Psingle : forall b, P [b] b.
Hypothesis Pmerge : forall gs b0 bs b, Forall2 pooled gs (b0 :: bs) -> Forall2 P gs (b0 :: bs) -> bs <> [] ->
  fst b = fst b0 -> is_mean (map snd (b0 :: bs)) (snd b) -> P (concat gs) b.
Fixpoint pooled_ind2 g b (H : pooled g b) {struct H} : P g b :=
  match H in pooled g b return P g b with
  | pooled_single b => Psingle b
  | pooled_merge gs b0 bs b HF Hne Hni Hf Hm =>
      Pmerge gs b0 bs b HF
        ((fix go gs bs (HF : Forall2 pooled gs bs) {struct HF} : Forall2 P gs bs :=
            match HF in Forall2 _ gs bs return Forall2 P gs bs with
            | Forall2_nil _ => Forall2_nil P
            | Forall2_cons x y Hxy HF' => Forall2_cons x y (pooled_ind2 x y Hxy) (go _ _ HF')
            end) gs (b0 :: bs) HF) Hne Hf Hm
  end.
End PooledInd.

Lemma Qsum_bounds l lo hi : (forall x, In x l -> (lo <= x <= hi)%Q) ->
  (lo * inject_Z (Z.of_nat (length l)) <= Qsum l <= hi * inject_Z (Z.of_nat (length l)))%Q.
Proof.
  induction l as [|x l IH]; intros H.
  - simpl. change (inject_Z 0) with 0%Q. lra.
  - pose proof (H x (or_introl eq_refl)). destruct IH as [I1 I2]; [intros; apply H; right; auto|].
    change (Qsum (x :: l)) with (x + Qsum l)%Q. cbn [length]. rewrite inject_S.
    rewrite !Qmult_plus_distr_r. lra.
Qed.

Lemma is_mean_bounds l v lo hi : (forall x, In x l -> (lo <= x <= hi)%Q) -> is_mean l v -> (lo <= v <= hi)%Q.
Proof.
  intros H [Hne Hm]. pose proof (Qsum_bounds l lo hi H) as HB. rewrite <- Hm in HB.
  destruct l as [|x l]; [congruence|]. pose proof (inject_pos (length l)) as P. cbn [length] in HB.
  destruct HB as [H1 H2]. apply Qmult_le_r in H1, H2; auto.
Qed.

Lemma pooled_facts g b : pooled g b ->
  g <> [] /\ (exists x rest, g = x :: rest /\ fst x = fst b) /\
  forall lo hi, (forall x, In x g -> (lo <= snd x <= hi)%Q) -> (lo <= snd b <= hi)%Q.
Proof.
  revert g b. apply pooled_ind2.
  - intros b. split; [discriminate|]. split; [eauto|]. intros lo hi H. apply H. simpl; auto.
  - intros gs b0 bs b HF HP Hne Hf Hm. inversion HP as [|g0 ? gs' ? (H1 & (x & rest & Hx & Hfx) & H3) HP']; subst gs l' y.
    split; [|split].
    + rewrite Hx. discriminate.
    + rewrite Hx. simpl. exists x. eexists. split; [reflexivity|]. congruence.
    + intros lo hi H. eapply is_mean_bounds; [|exact Hm]. intros v Hv. apply in_map_iff in Hv.
      destruct Hv as (y & <- & Hy). clear - HP H Hy. remember (g0 :: gs') as gs. clear Heqgs.
      remember (b0 :: bs) as cs. clear Heqcs.
      induction HP as [|g y' gs cs (P1 & P2 & P3) HP IH]; [destruct Hy|]. simpl in H. destruct Hy as [<-|Hy].
      * apply P3. intros x Hx. apply H. apply in_or_app; auto.
      * apply IH; auto. intros x Hx. apply H. apply in_or_app; auto.
Qed.

Lemma segs_thresholds segs : Forall seg_ok segs -> StronglySorted flt (concat (map fst segs)) ->
  StronglySorted flt (map snd segs) /\
  (forall t, In t (map fst (map snd segs)) -> In t (map fst (concat (map fst segs)))).
Proof.
  induction segs as [|[g b] segs IH]; intros Hok HS; simpl in *.
  - split; [constructor|auto].
  - inversion Hok as [|? ? H1 H2]; subst. unfold seg_ok in H1. simpl in H1.
    apply pooled_facts in H1. destruct H1 as (_ & (x & rest & -> & Hx) & _).
    pose proof (SS_app_inv _ _ _ HS) as [HS1 HS2]. destruct (IH H2 HS1) as [I1 I2]. split.
    + constructor; auto. apply Forall_forall. intros y Hy. unfold flt.
      assert (Hy' : In (fst y) (map fst (map snd segs))) by (apply in_map; auto).
      apply I2 in Hy'. apply in_map_iff in Hy'. destruct Hy' as (z & Hz & Hz').
      pose proof (HS2 x z (or_introl eq_refl) Hz') as HL. unfold flt in HL. rewrite Hx, Hz in HL. auto.
    + intros t [<-|Ht].
      * left. auto.
      * right. rewrite map_app. apply in_or_app. right. apply I2; auto.
Qed.

Lemma fit_lemma bins sorted : bins <> [] -> Permutation bins sorted -> thresholds_sorted sorted ->
  exists out, fitSorted sorted = Some out /\ out <> [] /\ thresholds_increasing out /\ probabilities_increasing out /\
    (forall t, In t (map fst out) -> In t (map fst bins)) /\
    (forall lo hi, (forall b, In b bins -> (lo <= snd b <= hi)%Q) -> forall b, In b out -> (lo <= snd b <= hi)%Q).
Proof.
  intros Hne HP HS. destruct sorted as [|b0 rest].
  { apply Permutation_sym, Permutation_nil in HP. congruence. }
  apply sorted_SS in HS. unfold fitSorted. rewrite eliminate_eq.
  pose proof (dedupF_ne rest b0 1 b0) as Hd. pose proof (dedupF_sorted rest b0 1 b0 HS (Qle_refl _)) as [HD _].
  pose proof (dedupF_thresholds rest b0 1 b0) as HT. 
  assert (HRg : forall lo hi, (forall b, In b bins -> (lo <= snd b <= hi)%Q) ->
    forall b, In b (dedupF b0 1 b0 rest) -> (lo <= snd b <= hi)%Q).
  { intros lo hi H. assert (H' : forall b, In b (b0 :: rest) -> (lo <= snd b <= hi)%Q).
    { intros b Hb. apply H. eapply Permutation_in; [apply Permutation_sym; exact HP|exact Hb]. }
    apply dedupF_range; try (apply H'; left; auto). intros b Hb. apply H'. right; auto. }
  remember (dedupF b0 1 b0 rest) as ded eqn:Eded.
  destruct (aggregate_ok ded Hd) as (segs & E1 & E2 & E3 & E4).
  exists (map snd segs). split; [exact E1|]. rewrite <- E4 in HD.
  destruct (segs_thresholds segs E2 HD) as [T1 T2].
  split; [|split; [|split; [|split]]].
  - intros E. destruct segs; [|discriminate]. simpl in E4. congruence.
  - intros i j a b. apply (SS_nth _ _ T1).
  - intros i j a b Hij Ha Hb. rewrite nth_error_map in Ha, Hb.
    destruct (nth_error segs i) as [sa|] eqn:Ea; [|discriminate]. destruct (nth_error segs j) as [sb|] eqn:Eb; [|discriminate].
    simpl in Ha, Hb. injection Ha as <-. injection Hb as <-. exact (SS_nth _ _ E3 i j sa sb Hij Ea Eb).
  - intros t Ht. apply T2 in Ht. rewrite E4 in Ht. apply HT in Ht.
    assert (HI : In t (map fst (b0 :: rest))) by (simpl; intuition).
    eapply Permutation_in; [apply Permutation_map, Permutation_sym; exact HP|exact HI].
  - intros lo hi H b Hb. apply in_map_iff in Hb. destruct Hb as ((g & b') & <- & Hs). cbn [snd].
    pose proof (proj1 (Forall_forall _ _) E2 _ Hs) as Hok. unfold seg_ok in Hok. cbn [fst snd] in Hok.
    apply pooled_facts in Hok. destruct Hok as (_ & _ & Hok). apply Hok. intros x Hx. apply (HRg lo hi H).
    rewrite <- E4. apply in_concat. exists g. split; auto. apply in_map_iff. exists (g, b'). auto.
Qed.

Lemma pool_lemma bins : bins <> [] ->
  exists groups out, aggregateNonIncreasingBins bins = Some out /\ concat groups = bins /\ Forall2 pooled groups out /\
    probabilities_increasing out.
Proof.
  intros Hne. destruct (aggregate_ok bins Hne) as (segs & E1 & E2 & E3 & E4).
  exists (map fst segs), (map snd segs). split; [exact E1|]. split; [exact E4|]. split.
  - clear - E2. induction E2; simpl; constructor; auto.
  - intros i j a b Hij Ha Hb. rewrite nth_error_map in Ha, Hb.
    destruct (nth_error segs i) as [sa|] eqn:Ea; [|discriminate]. destruct (nth_error segs j) as [sb|] eqn:Eb; [|discriminate].
    simpl in Ha, Hb. injection Ha as <-. injection Hb as <-. exact (SS_nth _ _ E3 i j sa sb Hij Ea Eb).
Qed.

(** ** Calibration *)
Lemma lowerBound_ok bins p : lowerBound bins p <= length bins /\
  (forall i b, i < lowerBound bins p -> nth_error bins i = Some b -> (fst b < p)%Q) /\
  (forall b, nth_error bins (lowerBound bins p) = Some b -> (p <= fst b)%Q).
Proof.
  induction bins as [|x bins (I1 & I2 & I3)]; simpl.
  - repeat split; auto; try (intros; lia). discriminate.
  - destruct (Qltb_spec (fst x) p) as [H|H].
    + split; [lia|]. split.
      * intros [|i] b Hi Hb; simpl in Hb; [congruence|]. apply (I2 i); auto. lia.
      * intros b Hb. simpl in Hb. auto.
    + split; [lia|]. split; [intros; lia|]. intros b Hb. simpl in Hb. injection Hb as <-. lra.
Qed.

Lemma interp_ok a b p v : (fst a < p)%Q -> (p <= fst b)%Q ->
  v = (snd a + (p - fst a) / (fst b - fst a) * (snd b - snd a))%Q ->
  ((v - snd a) * (fst b - fst a) == (p - fst a) * (snd b - snd a))%Q.
Proof. intros H1 H2 ->. field. lra. Qed.

Lemma calibrate_ok bins p : bins <> [] -> (0 < p <= 1)%Q ->
  exists v, calibrateProbability bins p = Some (Some v) /\ interpolates ((0, 0)%Q :: bins ++ [(1, 1)%Q]) p v.
Proof.
  intros Hne Hp. destruct (lowerBound_ok bins p) as (L1 & L2 & L3). unfold calibrateProbability.
  set (o := lowerBound bins p) in *. 
  assert (Hlow : exists lo, nth_error ((0, 0)%Q :: bins ++ [(1, 1)%Q]) o = Some lo /\ (fst lo < p)%Q /\
    (if 0 <? o then aget bins (o - 1) else Some (0%Q, 0%Q)) = Some lo).
  { destruct o as [|o]; simpl.
    - exists (0, 0)%Q. simpl. repeat split; auto. tauto.
    - rewrite Nat.sub_0_r. destruct (aget_Some bins o ltac:(lia)) as (b & Hb). exists b. unfold aget in Hb.
      rewrite nth_error_app1 by lia. repeat split; auto. apply (L2 o); auto. }
  destruct Hlow as (lo & Hlo1 & Hlo2 & Hlo3).
  destruct (Nat.eqb_spec o (length bins)) as [E|E].
  - destruct (Nat.eqb_spec o 0) as [E0|E0].
    { destruct bins; [congruence|simpl in E; lia]. }
    destruct (Nat.ltb_spec 0 o); [|lia]. rewrite Hlo3. cbn [fst snd].
    destruct (Qeq_dec (1 - fst lo) 0) as [H0|H0]; [exfalso; lra|].
    eexists. split; [reflexivity|]. exists o, lo, (1, 1)%Q. split; [exact Hlo1|]. split.
    + simpl. rewrite nth_error_app2 by lia. rewrite E, Nat.sub_diag. auto.
    + split; [exact Hlo2|]. split; [simpl; tauto|]. apply (interp_ok lo (1, 1)%Q p); auto. simpl. tauto.
  - rewrite Hlo3. destruct (aget_Some bins o ltac:(lia)) as (up & Hup). rewrite Hup. unfold aget in Hup.
    pose proof (L3 _ Hup) as Hpu.
    destruct (Qeq_dec (fst up - fst lo) 0) as [H0|H0]; [exfalso; lra|].
    eexists. split; [reflexivity|]. exists o, lo, up. split; [exact Hlo1|]. split.
    + simpl. rewrite nth_error_app1 by lia. auto.
    + split; [exact Hlo2|]. split; [exact Hpu|]. apply (interp_ok lo up p); auto.
Qed.

Lemma calibrate_zero bins b rest : bins = b :: rest -> (0 < fst b)%Q ->
  exists v, calibrateProbability bins 0 = Some (Some v) /\ (v == 0)%Q.
Proof.
  intros -> Hb. unfold calibrateProbability. simpl. destruct (Qltb_spec (fst b) 0); [lra|]. simpl.
  destruct (Qeq_dec _ 0) as [E|E]; [lra|]. eexists. split; [reflexivity|]. field. lra.
Qed.

Lemma interp_bounds a b p v : (fst a < p)%Q -> (p <= fst b)%Q -> (snd a <= snd b)%Q ->
  ((v - snd a) * (fst b - fst a) == (p - fst a) * (snd b - snd a))%Q -> (snd a <= v <= snd b)%Q.
Proof.
  intros H1 H2 H3 E.
  assert (Hd : (0 < fst b - fst a)%Q) by lra.
  assert (L : (0 * (fst b - fst a) <= (v - snd a) * (fst b - fst a))%Q) by (rewrite E; nra).
  assert (U : ((v - snd a) * (fst b - fst a) <= (snd b - snd a) * (fst b - fst a))%Q) by (rewrite E; nra).
  apply Qmult_le_r in L; auto. apply Qmult_le_r in U; auto. lra.
Qed.

Definition weakly (points : list bin) : Prop :=
  forall i j a b, i < j -> nth_error points i = Some a -> nth_error points j = Some b ->
    (fst a <= fst b)%Q /\ (snd a <= snd b)%Q.

Lemma interp_monotone points p p' v v' : weakly points -> interpolates points p v -> interpolates points p' v' ->
  (p <= p')%Q -> (v <= v')%Q.
Proof.
  intros HW (i & a & b & Ha & Hb & H1 & H2 & HE) (i' & a' & b' & Ha' & Hb' & H1' & H2' & HE') Hpp.
  destruct (Nat.lt_trichotomy i i') as [Hi|[<-|Hi]].
  - pose proof (interp_bounds a b p v H1 H2 (proj2 (HW i (S i) a b ltac:(lia) Ha Hb)) HE).
    pose proof (interp_bounds a' b' p' v' H1' H2' (proj2 (HW i' (S i') a' b' ltac:(lia) Ha' Hb')) HE').
    destruct (Nat.eq_dec (S i) i') as [<-|Hn].
    + assert (b = a') as -> by congruence. lra.
    + pose proof (HW (S i) i' b a' ltac:(lia) Hb Ha') as [_ W]. lra.
  - assert (a' = a) as -> by congruence. assert (b' = b) as -> by congruence.
    pose proof (proj2 (HW i (S i) a b ltac:(lia) Ha Hb)) as W.
    assert (Hd : (0 < fst b - fst a)%Q) by lra.
    assert (L : ((v - snd a) * (fst b - fst a) <= (v' - snd a) * (fst b - fst a))%Q) by (rewrite HE, HE'; nra).
    apply Qmult_le_r in L; auto. lra.
  - exfalso. destruct (Nat.eq_dec (S i') i) as [<-|Hn].
    + assert (b' = a) as -> by congruence. lra.
    + pose proof (HW (S i') i b' a ltac:(lia) Hb' Ha) as [W _]. lra.
Qed.

Lemma points_weakly bins : thresholds_increasing bins -> probabilities_increasing bins ->
  (forall b, In b bins -> (0 <= fst b <= 1)%Q /\ (0 <= snd b <= 1)%Q) ->
  weakly ((0, 0)%Q :: bins ++ [(1, 1)%Q]).
Proof.
  intros HT HP HR i j a b Hij Ha Hb.
  assert (HA : forall k c, nth_error (bins ++ [(1, 1)%Q]) k = Some c -> (k < length bins /\ nth_error bins k = Some c /\ In c bins) \/ (k = length bins /\ c = (1, 1)%Q)).
  { intros k c Hk. destruct (Nat.lt_ge_cases k (length bins)) as [H|H].
    - rewrite nth_error_app1 in Hk by auto. left. split; auto. split; auto. eapply nth_error_In; eauto.
    - rewrite nth_error_app2 in Hk by auto. destruct (k - length bins) as [|m] eqn:E; simpl in Hk.
      + right. split; [lia|congruence].
      + destruct m; discriminate. }
  destruct j as [|j]; [lia|]. simpl in Hb. apply HA in Hb.
  destruct i as [|i].
  - simpl in Ha. injection Ha as <-. simpl. destruct Hb as [(_ & _ & Hb)|(_ & ->)].
    + apply HR in Hb. tauto.
    + simpl. lra.
  - simpl in Ha. apply HA in Ha. destruct Ha as [(Hi & Ha & Ha')|(Hi & ->)].
    + destruct Hb as [(Hj & Hb & Hb')|(_ & ->)].
      * pose proof (HT i j a b ltac:(lia) Ha Hb). pose proof (HP i j a b ltac:(lia) Ha Hb). lra.
      * apply HR in Ha'. simpl. tauto.
    + destruct Hb as [(Hj & _)|(Hj & ->)]; lia.
Qed.

Lemma C27_calibration_lemma bins sorted out : bins <> [] -> Permutation bins sorted -> thresholds_sorted sorted ->
  (forall b, In b bins -> (0 <= fst b <= 1)%Q /\ (0 <= snd b <= 1)%Q) ->
  fitSorted sorted = Some out ->
  (forall p, (0 < p <= 1)%Q -> exists v, calibrateProbability out p = Some (Some v) /\ (0 <= v <= 1)%Q /\
     interpolates ((0, 0)%Q :: out ++ [(1, 1)%Q]) p v) /\
  (forall p p' v v', (0 < p)%Q -> (p <= p')%Q -> (p' <= 1)%Q ->
     calibrateProbability out p = Some (Some v) -> calibrateProbability out p' = Some (Some v') -> (v <= v')%Q).
Proof.
  intros Hne HP HS HR HF. destruct (fit_lemma bins sorted Hne HP HS) as (out' & F1 & F2 & F3 & F4 & F5 & F6).
  assert (out' = out) as -> by congruence.
  assert (HR' : forall b, In b out -> (0 <= fst b <= 1)%Q /\ (0 <= snd b <= 1)%Q).
  { intros b Hb. split.
    - assert (Hf : In (fst b) (map fst out)) by (apply in_map; auto). apply F5 in Hf. apply in_map_iff in Hf.
      destruct Hf as (x & <- & Hx). apply HR; auto.
    - apply (F6 0%Q 1%Q); auto. intros x Hx. apply HR; auto. }
  pose proof (points_weakly out F3 F4 HR') as HW. split.
  - intros p Hp. destruct (calibrate_ok out p F2 Hp) as (v & E1 & E2). exists v. split; [exact E1|]. split; [|exact E2].
    destruct E2 as (i & a & b & Ha & Hb & H1 & H2 & HE).
    pose proof (interp_bounds a b p v H1 H2 (proj2 (HW i (S i) a b ltac:(lia) Ha Hb)) HE) as HB.
    assert (HA : forall c, In c ((0, 0)%Q :: out ++ [(1, 1)%Q]) -> (0 <= snd c <= 1)%Q).
    { intros c [<-|Hc]; [simpl; lra|]. apply in_app_or in Hc. destruct Hc as [Hc|[<-|[]]]; [apply HR'; auto|simpl; lra]. }
    pose proof (HA a (nth_error_In _ _ Ha)). pose proof (HA b (nth_error_In _ _ Hb)). lra.
  - intros p p' v v' H0 Hpp H1 E E'. destruct (calibrate_ok out p F2 ltac:(lra)) as (w & W1 & W2).
    destruct (calibrate_ok out p' F2 ltac:(lra)) as (w' & W1' & W2').
    assert (w = v) as -> by congruence. assert (w' = v') as -> by congruence. eapply interp_monotone; eauto.
Qed.

(** ** Label vectors *)
Lemma equal_loop lv : forall pre l r,
  exists l', forN (length lv) (length pre) (fun i '(r, it) =>
    if negb r then Some (r, it) else
    match it with
    | [] => Some (false, it)
    | h :: rest => let* x := aget (pre ++ lv) i in
                   if negb (h =? x) then Some (false, it) else Some (true, rest)
    end) (r, l) = Some (if r then (if (if list_eq_dec Nat.eq_dec lv (firstn (length lv) l) then true else false) then true else false) else false, l').
Proof.
  induction lv as [|x lv IH]; intros pre l r.
  - exists l. simpl. destruct r; reflexivity.
  - cbn [length forN]. destruct r; cbn [negb].
    + destruct l as [|h l]; cbn [firstn].
      * specialize (IH (pre ++ [x]) [] false). rewrite app_length in IH. cbn [length] in IH. rewrite Nat.add_1_r, <- app_assoc in IH. cbn [app] in IH. destruct IH as (l' & IH).
        exists l'. rewrite IH. reflexivity.
      * unfold aget at 1. rewrite nth_error_app2, Nat.sub_diag by lia. cbn [nth_error].
        destruct (Nat.eqb_spec h x) as [->|Hn]; cbn [negb].
        -- specialize (IH (pre ++ [x]) l true). rewrite app_length in IH. cbn [length] in IH. rewrite Nat.add_1_r, <- app_assoc in IH. cbn [app] in IH. destruct IH as (l' & IH).
           exists l'. rewrite IH. destruct (list_eq_dec Nat.eq_dec lv (firstn (length lv) l)),
             (list_eq_dec Nat.eq_dec (x :: lv) (x :: firstn (length lv) l)); try congruence; reflexivity.
        -- specialize (IH (pre ++ [x]) (h :: l) false). rewrite app_length in IH. cbn [length] in IH. rewrite Nat.add_1_r, <- app_assoc in IH. cbn [app] in IH. destruct IH as (l' & IH).
           exists l'. rewrite IH. destruct (list_eq_dec Nat.eq_dec (x :: lv) (h :: firstn (length lv) l)); congruence.
    + specialize (IH (pre ++ [x]) l false). rewrite app_length in IH. cbn [length] in IH. rewrite Nat.add_1_r, <- app_assoc in IH. cbn [app] in IH. destruct IH as (l' & IH).
      exists l'. rewrite IH. reflexivity.
Qed.

Lemma equal_prefix l lv : areLabelVectorsEqual l lv = Some true <-> exists rest, l = lv ++ rest.
Proof.
  unfold areLabelVectorsEqual. destruct (equal_loop lv [] l true) as (l' & E). cbn [app length] in E. rewrite E.
  destruct (list_eq_dec Nat.eq_dec lv (firstn (length lv) l)) as [H|H]; split; intros HH; try congruence.
  - exists (skipn (length lv) l). rewrite H at 1. rewrite firstn_skipn. auto.
  - destruct HH as (rest & ->). exfalso. apply H. rewrite firstn_app, firstn_all, Nat.sub_diag. simpl. rewrite app_nil_r. auto.
Qed.
