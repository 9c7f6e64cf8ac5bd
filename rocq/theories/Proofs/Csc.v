From Coq Require Import Arith List Bool Lia Permutation.
From Verif Require Import Lib.Arr Model.Sampling Model.Stratified Model.Csc Proofs.Sampling Proofs.Stratified Proofs.StratifiedOutput.
Import ListNotations.

(** Examples that are paired with label [l]. *)
Definition occ (l : nat) (ps : list (nat * nat)) : list nat := map fst (filter (fun p => snd p =? l) ps).

Lemma occ_app l a b : occ l (a ++ b) = occ l a ++ occ l b.
Proof. unfold occ. rewrite filter_app, map_app. auto. Qed.

Lemma occ_one l e k : occ l [(e, k)] = if k =? l then [e] else [].
Proof. unfold occ. simpl. destruct (k =? l); auto. Qed.

Fixpoint off (ps : list (nat * nat)) (l : nat) : nat :=
  match l with O => 0 | S k => off ps k + length (occ k ps) end.

Lemma off_le ps a b : a < b -> off ps a + length (occ a ps) <= off ps b.
Proof. induction b; intros H; [lia|]. simpl. destruct (Nat.eq_dec a b); [subst; lia|]. specialize (IHb ltac:(lia)). lia. Qed.

Lemma off_filter ps m : off ps m = length (filter (fun p => snd p <? m) ps).
Proof.
  induction m; simpl.
  - induction ps; simpl; auto.
  - rewrite IHm. unfold occ. rewrite map_length. clear. induction ps as [|[e l] ps IH]; simpl; auto.
    destruct (Nat.ltb_spec l m), (Nat.eqb_spec l m), (Nat.ltb_spec l (S m)); simpl; try lia.
Qed.

Lemma off_total ps n : (forall p, In p ps -> snd p < n) -> off ps n = length ps.
Proof.
  intros H. rewrite off_filter. induction ps as [|p ps IH]; simpl; auto.
  rewrite (proj2 (Nat.ltb_lt _ _)) by (apply H; left; auto). simpl. f_equal. apply IH. intros q Hq. apply H. right. auto.
Qed.

Section Csc.
  Variables (rows : list (list nat)) (n : nat) (examples : list nat).
  Hypothesis rows_ok : forall r, In r rows -> NoDup r /\ forall l, In l r -> l < n.
  Hypothesis ex_ok : forall e, In e examples -> e < length rows.
  Let ps := flat_map (fun e => map (pair e) (nth e rows [])) examples.

  Lemma ps_label p : In p ps -> snd p < n.
  Proof.
    unfold ps. rewrite in_flat_map. intros (e & He & Hp). apply in_map_iff in Hp as (l & <- & Hl). simpl.
    apply (rows_ok (nth e rows [])); auto. apply nth_In. apply ex_ok. auto.
  Qed.

  Lemma occ_column l : occ l ps = cscColumn rows examples l.
  Proof.
    unfold ps. revert ex_ok. clear ps. induction examples as [|e ex IH]; intros H; simpl; auto.
    rewrite occ_app, IH by (intros; apply H; right; auto). clear IH.
    assert (He : e < length rows) by (apply H; left; auto).
    destruct (nth_error rows e) as [r|] eqn:E; [|apply nth_error_None in E; lia].
    rewrite (nth_error_nth _ _ _ E). unfold hasLabel at 1. rewrite E.
    destruct (rows_ok r (nth_error_In _ _ E)) as (ND & _). clear - ND.
    replace (occ l (map (pair e) r)) with (if mem l r then [e] else []); [destruct (mem l r); auto|].
    induction r as [|x r IH]; simpl; auto. inversion ND; subst. specialize (IH H2).
    change (map (pair e) (x :: r)) with ([(e, x)] ++ map (pair e) r). 
    change (occ l ((e, x) :: map (pair e) r)) with (occ l ([(e, x)] ++ map (pair e) r)).
    rewrite occ_app, occ_one, <- IH. unfold mem. simpl. rewrite (Nat.eqb_sym l x). destruct (Nat.eqb_spec x l); simpl; auto.
    subst. fold (mem l r). rewrite (proj2 (mem_false l r) H1). auto.
  Qed.

  Lemma nested {S} (body : nat -> nat -> S -> option S) st :
    forL examples (fun e st => let* labels := aget rows e in forL labels (body e) st) st
    = forL ps (fun p => body (fst p) (snd p)) st.
  Proof.
    unfold ps. rewrite <- (forL_nested (fun e => nth e rows [])). apply forL_ext. intros e s He.
    unfold aget. destruct (nth_error rows e) eqn:E.
    - rewrite (nth_error_nth _ _ _ E). auto.
    - apply nth_error_None in E. specialize (ex_ok e He). lia.
  Qed.

  Lemma countLabels_ok indptr : n <= length indptr -> (forall l, l < n -> nth_error indptr l = Some 0) ->
    exists indptr', countLabels rows examples indptr = Some indptr' /\ length indptr' = length indptr /\
      forall l, l < n -> nth_error indptr' l = Some (length (occ l ps)).
  Proof.
    intros HL H0. unfold countLabels.
    rewrite (nested (fun _ l indptr => let* k := aget indptr l in aset indptr l (k + 1))).
    match goal with |- context [forL ps ?f indptr] =>
      destruct (forL_inv (fun done ip => length ip = length indptr /\ forall l, l < n -> nth_error ip l = Some (length (occ l done)))
        f ps [] indptr) as (ip & E & L & H)
    end.
    - split; auto.
    - intros p [e l] r ip Ep (L & H). simpl.
      assert (Hl : l < n). { apply (ps_label (e, l)). simpl in Ep. rewrite Ep. apply in_elt. }
      unfold aget. rewrite (H l Hl). rewrite aset_Some by lia. eexists; split; [reflexivity|].
      split; [rewrite upd_length; auto|]. intros k Hk. rewrite occ_app, occ_one, app_length.
      destruct (Nat.eqb_spec l k).
      + subst. rewrite nth_error_upd_eq by lia. auto.
      + rewrite nth_error_upd_neq by auto. rewrite (H k Hk). simpl. f_equal. lia.
    - exists ip. auto.
  Qed.

  Lemma offsets_ok indptr : n <= length indptr -> (forall l, l < n -> nth_error indptr l = Some (length (occ l ps))) ->
    exists indptr', countsToOffsets n indptr = Some (indptr', off ps n) /\ length indptr' = length indptr /\
      forall l, l < n -> nth_error indptr' l = Some (off ps l).
  Proof.
    intros HL H0. unfold countsToOffsets.
    match goal with |- context [forN n 0 ?f ?x] =>
      destruct (forN_inv (fun i '(ip, tmp) => length ip = length indptr /\ tmp = off ps i /\
         (forall l, l < i -> nth_error ip l = Some (off ps l)) /\
         (forall l, i <= l < n -> nth_error ip l = Some (length (occ l ps)))) f n 0 x) as ((ip & tmp) & E & L & T & H1 & H2)
    end.
    - split; auto. split; auto. split; [intros; lia|]. intros l Hl. apply H0. lia.
    - intros i (ip & tmp) Hi (L & T & H1 & H2). unfold aget. rewrite (H2 i) by lia. rewrite aset_Some by lia.
      eexists; split; [reflexivity|]. cbv beta iota. rewrite upd_length. split; auto. split; [subst; auto|]. split.
      + intros l Hl. destruct (Nat.eq_dec l i).
        * subst. rewrite nth_error_upd_eq by lia. auto.
        * rewrite nth_error_upd_neq by lia. apply H1. lia.
      + intros l Hl. rewrite nth_error_upd_neq by lia. apply H2. lia.
    - rewrite E. simpl in *. subst. exists ip. auto.
  Qed.

  Lemma fill_ok out indptr : n <= length indptr -> length ps <= length out ->
    (forall l, l < n -> nth_error indptr l = Some (off ps l)) ->
    exists out' indptr', fillColumns rows examples out indptr = Some (out', indptr') /\
      length indptr' = length indptr /\ length out' = length out /\
      (forall l, l < n -> nth_error indptr' l = Some (off ps (S l))) /\
      (forall l j, l < n -> j < length (occ l ps) -> nth_error out' (off ps l + j) = nth_error (occ l ps) j).
  Proof.
    intros HL HC H0. unfold fillColumns.
    rewrite (nested (fun e l '(out, indptr) =>
      let* position := aget indptr l in
      let* out' := aset out position e in
      let* indptr' := aset indptr l (position + 1) in
      Some (out', indptr'))).
    match goal with |- context [forL ps ?f ?x] =>
      destruct (forL_inv (fun done '(o, ip) => length ip = length indptr /\ length o = length out /\
         (forall l, l < n -> nth_error ip l = Some (off ps l + length (occ l done))) /\
         (forall l j, l < n -> j < length (occ l done) -> nth_error o (off ps l + j) = nth_error (occ l done) j))
        f ps [] x) as ((o & ip) & E & L1 & L2 & H1 & H2)
    end.
    - split; auto. split; auto. split.
      + intros l Hl. simpl. rewrite Nat.add_0_r. auto.
      + intros l j Hl Hj. simpl in Hj. lia.
    - intros p [e l] r (o & ip) Ep (L1 & L2 & H1 & H2). simpl in Ep. simpl fst; simpl snd.
      assert (Hl : l < n). { apply (ps_label (e, l)). rewrite Ep. apply in_elt. }
      assert (OC : forall k, length (occ k ps) = length (occ k p) + length (occ k [(e, l)]) + length (occ k r)).
      { intros k. rewrite Ep. change ((e, l) :: r) with ([(e, l)] ++ r). rewrite !occ_app, !app_length. lia. }
      assert (OT : forall k, k < n -> off ps k + length (occ k ps) <= length ps).
      { intros k Hk. rewrite <- (off_total ps n ps_label). apply off_le. auto. }
      pose proof (OC l) as OCl. rewrite occ_one, Nat.eqb_refl in OCl. simpl in OCl. pose proof (OT l Hl) as OTl.
      unfold aget. rewrite (H1 l Hl). rewrite aset_Some by lia. rewrite aset_Some by lia.
      eexists; split; [reflexivity|]. cbv beta iota. rewrite !upd_length. split; auto. split; auto. split.
      + intros k Hk. rewrite occ_app, occ_one, app_length. destruct (Nat.eqb_spec l k).
        * subst. rewrite nth_error_upd_eq by lia. simpl. f_equal. lia.
        * rewrite nth_error_upd_neq by auto. rewrite (H1 k Hk). simpl. f_equal. lia.
      + intros k j Hk Hj. rewrite occ_app, occ_one in Hj |- *. rewrite app_length in Hj.
        destruct (Nat.eqb_spec l k).
        * subst k. simpl in Hj. destruct (Nat.eq_dec j (length (occ l p))).
          -- subst. rewrite nth_error_upd_eq by lia. rewrite nth_error_app2, Nat.sub_diag; auto.
          -- rewrite nth_error_upd_neq by lia. rewrite nth_error_app1 by lia. apply H2; auto. lia.
        * rewrite app_nil_r. simpl in Hj. rewrite nth_error_upd_neq; [apply H2; auto; lia|].
          pose proof (OC k) as OCk.
          destruct (Nat.lt_total l k) as [Hlk|[->|Hlk]]; [|tauto|].
          -- pose proof (off_le ps l k Hlk). lia.
          -- pose proof (off_le ps k l Hlk). lia.
    - rewrite E. simpl in *. exists o, ip. auto.
  Qed.

  Lemma restore_ok indptr : n <= length indptr -> (forall l, l < n -> nth_error indptr l = Some (off ps (S l))) ->
    exists indptr', restoreOffsets n indptr = Some (indptr', off ps n) /\ length indptr' = length indptr /\
      forall l, l < n -> nth_error indptr' l = Some (off ps l).
  Proof.
    intros HL H0. unfold restoreOffsets.
    match goal with |- context [forN n 0 ?f ?x] =>
      destruct (forN_inv (fun i '(ip, tmp) => length ip = length indptr /\ tmp = off ps i /\
         (forall l, l < i -> nth_error ip l = Some (off ps l)) /\
         (forall l, i <= l < n -> nth_error ip l = Some (off ps (S l)))) f n 0 x) as ((ip & tmp) & E & L & T & H1 & H2)
    end.
    - split; auto. split; auto. split; [intros; lia|]. intros l Hl. apply H0. lia.
    - intros i (ip & tmp) Hi (L & T & H1 & H2). unfold aget. rewrite (H2 i) by lia. rewrite aset_Some by lia.
      eexists; split; [reflexivity|]. cbv beta iota. rewrite upd_length. split; auto. split; [subst; auto|]. split.
      + intros l Hl. destruct (Nat.eq_dec l i).
        * subst. rewrite nth_error_upd_eq by lia. auto.
        * rewrite nth_error_upd_neq by lia. apply H1. lia.
      + intros l Hl. rewrite nth_error_upd_neq by lia. apply H2. lia.
    - rewrite E. simpl in *. subst. exists ip. auto.
  Qed.

  Lemma csrToCsc_ok out indptr : length indptr = S n ->
    length (concat (map (fun e => nth e rows []) examples)) <= length out ->
    exists out' indptr', csrToCsc rows n examples out indptr = Some (out', indptr') /\ length indptr' = S n /\
      nth_error indptr' 0 = Some 0 /\ nth_error indptr' n = Some (length out') /\
      forall l, l < n -> exists a b, nth_error indptr' l = Some a /\ nth_error indptr' (S l) = Some b /\ a <= b /\
        firstn (b - a) (skipn a out') = filter (fun e => mem l (nth e rows [])) examples.
  Proof.
    intros HL HC. unfold csrToCsc.
    assert (LP : length ps = length (concat (map (fun e => nth e rows []) examples))).
    { unfold ps. clear. induction examples as [|e ex IH]; simpl; auto. rewrite !app_length, map_length, IH. auto. }
    match goal with |- context [forN n 0 ?f indptr] =>
      destruct (forN_inv (fun i ip => length ip = length indptr /\ forall l, l < i -> nth_error ip l = Some 0) f n 0 indptr)
        as (ip0 & E0 & L0 & H0)
    end.
    { split; auto. intros; lia. }
    { intros i ip Hi (L & H). rewrite aset_Some by lia. eexists; split; [reflexivity|]. rewrite upd_length. split; auto.
      intros l Hl. destruct (Nat.eq_dec l i); [subst; apply nth_error_upd_eq; lia|]. rewrite nth_error_upd_neq by lia. apply H. lia. }
    rewrite E0. destruct (countLabels_ok ip0) as (ip1 & E1 & L1 & H1); [lia|auto|]. rewrite E1.
    destruct (offsets_ok ip1) as (ip2 & E2 & L2 & H2); [lia|auto|]. rewrite E2.
    destruct (fill_ok out ip2) as (out' & ip3 & E3 & L3 & LO & H3 & H3'); [lia|lia|auto|]. rewrite E3.
    destruct (restore_ok ip3) as (ip4 & E4 & L4 & H4); [lia|auto|]. rewrite E4. rewrite aset_Some by lia.
    eexists _, _. split; [reflexivity|]. rewrite upd_length. split; [lia|].
    assert (OT := off_total ps n ps_label).
    assert (HI : forall l, l <= n -> nth_error (upd ip4 n (off ps n)) l = Some (off ps l)).
    { intros l Hl. destruct (Nat.eq_dec l n); [subst; apply nth_error_upd_eq; lia|]. rewrite nth_error_upd_neq by auto. apply H4. lia. }
    split; [rewrite HI by lia; auto|]. split.
    { rewrite HI by lia. rewrite firstn_length. f_equal. lia. }
    intros l Hl. exists (off ps l), (off ps (S l)). split; [apply HI; lia|]. split; [apply HI; lia|]. simpl.
    split; [lia|]. replace (off ps l + length (occ l ps) - off ps l) with (length (occ l ps)) by lia.
    transitivity (occ l ps).
    - pose proof (off_le ps l n Hl) as OL.
      assert (G : forall (l : list nat) k i, nth_error (firstn i l) k = if k <? i then nth_error l k else None).
      { clear. induction l; intros [|k] [|i]; simpl; auto.
        - destruct (S k <? S i); auto.
        - rewrite IHl. auto. }
      assert (G2 : forall (l : list nat) k i, nth_error (skipn i l) k = nth_error l (i + k)).
      { clear. induction l; intros k [|i]; simpl; auto. destruct k; auto. }
      apply nth_error_ext. intros j. rewrite G, G2, G. destruct (Nat.ltb_spec j (length (occ l ps))).
      + destruct (Nat.ltb_spec (off ps l + j) (off ps n)); [|lia]. apply H3'; auto.
      + symmetry. apply nth_error_None. auto.
    - rewrite occ_column. unfold cscColumn. apply filter_ext_In. intros e He. unfold hasLabel.
      destruct (nth_error rows e) eqn:E.
      + rewrite (nth_error_nth _ _ _ E). auto.
      + apply nth_error_None in E. specialize (ex_ok e He). lia.
  Qed.
End Csc.
