(** Proofs about the statistics used by separate-and-conquer algorithms. *)
From Coq Require Import ZArith NArith Arith List Bool Sorted Lia Permutation.
From Verif Require Import Lib.Arr Model.SecoStatistics Spec.Seco.
Import ListNotations.
Open Scope nat_scope.
Local Arguments Nat.leb : simpl never.
Local Arguments Nat.ltb : simpl never.

(** ** The iterator *)

Definition fwdAt (indices : list nat) (n : nat) : fwd := Nat.iter n fwdNext (fwdNew indices).

Lemma fwdAt_spec indices n : StronglySorted lt indices ->
  fwdAt indices n = mkFwd n (filter (fun x => n <=? x) indices).
Proof.
  intros HS. induction n as [|n IH].
  - unfold fwdAt. simpl. unfold fwdNew. f_equal. clear HS. induction indices; simpl; congruence.
  - unfold fwdAt in *. simpl. rewrite IH. unfold fwdNext. simpl. f_equal; [lia|]. clear IH.
    induction indices as [|h t IHt]; simpl; auto.
    inversion HS as [|? ? HS1 HF]; subst.
    destruct (Nat.leb_spec n h) as [L|L].
    + destruct (Nat.ltb_spec h (n + 1)) as [L1|L1].
      * assert (h = n) as -> by lia. replace (S n <=? n) with false by (symmetry; apply Nat.leb_gt; lia).
        clear - HF. induction t as [|x t IH]; simpl; auto. pose proof (Forall_inv HF); apply Forall_inv_tail in HF; simpl in *.
        replace (n <=? x) with true by (symmetry; apply Nat.leb_le; lia).
        replace (S n <=? x) with true by (symmetry; apply Nat.leb_le; lia). f_equal. auto.
      * replace (S n <=? h) with true by (symmetry; apply Nat.leb_le; lia). f_equal.
        clear - HF L1. induction t as [|x t IH]; simpl; auto. pose proof (Forall_inv HF); apply Forall_inv_tail in HF; simpl in *.
        replace (n <=? x) with true by (symmetry; apply Nat.leb_le; lia).
        replace (S n <=? x) with true by (symmetry; apply Nat.leb_le; lia). f_equal. auto.
    + replace (S n <=? h) with false by (symmetry; apply Nat.leb_gt; lia). auto.
Qed.

Lemma fwdAt_deref indices n : StronglySorted lt indices -> fwdDeref (fwdAt indices n) = existsb (Nat.eqb n) indices.
Proof.
  intros HS. rewrite fwdAt_spec by auto. unfold fwdDeref. simpl.
  induction indices as [|h t IH]; simpl; auto. inversion HS as [|? ? HS1 HF]; subst.
  destruct (Nat.leb_spec n h).
  - rewrite (Nat.eqb_sym h n). destruct (Nat.eqb_spec n h); simpl; auto. symmetry.
    clear - H n0 HF. induction t as [|x t IH]; simpl; auto. pose proof (Forall_inv HF); apply Forall_inv_tail in HF; simpl in *. rewrite IH by auto.
    destruct (Nat.eqb_spec n x); auto. lia.
  - replace (n =? h) with false by (symmetry; apply Nat.eqb_neq; lia). simpl. auto.
Qed.

Lemma fwdAt_next indices n : fwdNext (fwdAt indices n) = fwdAt indices (S n).
Proof. reflexivity. Qed.

Lemma iter_add {A} (f : A -> A) a b x : Nat.iter (a + b) f x = Nat.iter a f (Nat.iter b f x).
Proof. induction a; simpl; congruence. Qed.

Lemma fwdAt_advance indices p i : p <= i -> fwdAdvance (fwdAt indices p) i p = Some (fwdAt indices i).
Proof.
  intros. unfold fwdAdvance. destruct (Nat.ltb_spec i p); [lia|]. unfold fwdAt. rewrite <- iter_add. repeat f_equal. lia.
Qed.

Lemma mem_In l i : mem l i = true <-> In i l.
Proof.
  unfold mem. rewrite existsb_exists. split.
  - intros (x & Hx & E). apply Nat.eqb_eq in E. subst. auto.
  - intros. exists i. rewrite Nat.eqb_refl. auto.
Qed.

Lemma mem_false l i : mem l i = false <-> ~ In i l.
Proof. rewrite <- mem_In. destruct (mem l i); intuition congruence. Qed.

(** ** Label iterators *)

Lemma represents_row lm label e : represents lm label -> e < lmRows lm ->
  exists li, liNew lm e = Some li /\
    forall l, l < lmCols lm -> liDeref (Nat.iter l liNext li) = Some (label e l).
Proof.
  intros HR He. unfold represents in HR. unfold liNew. destruct (lmValues lm) as [values|rows].
  - destruct HR as (HL & HR). exists (DenseIter values (e * lmCols lm)). split; auto. intros l Hl.
    assert (E : Nat.iter l liNext (DenseIter values (e * lmCols lm)) = DenseIter values (e * lmCols lm + l)).
    { clear. induction l; simpl; [rewrite Nat.add_0_r; auto|]. rewrite IHl. simpl. f_equal. lia. }
    rewrite E. simpl. unfold aget. auto.
  - destruct HR as (HL & HR). destruct (aget_Some rows e) as (row & E); [lia|]. rewrite E.
    exists (SparseIter (fwdNew row)). split; auto. intros l Hl. destruct (HR e row E) as (HS & HI).
    assert (E1 : Nat.iter l liNext (SparseIter (fwdNew row)) = SparseIter (fwdAt row l)).
    { clear. induction l; simpl; auto. rewrite IHl. auto. }
    rewrite E1. simpl. f_equal. rewrite fwdAt_deref by auto. fold (mem row l).
    destruct (mem row l) eqn:M; symmetry.
    + apply mem_In in M. apply HI in M. tauto.
    + apply mem_false in M. destruct (label e l) eqn:Y; auto. exfalso. apply M, HI. auto.
Qed.

(** ** Adding to vectors of confusion matrices *)

(** The effect on the confusion matrix of the label [l]. *)
Definition bump (label uncovered : nat -> nat -> bool) (majority : nat -> bool) (e : nat) (w : Z) (l : nat) (m : confusion) :=
  if uncovered e l then cmAddTo m (label e l) (majority l) w else m.

Lemma bump_element label unc majority e w l m t p :
  element (bump label unc majority e w l m) t p = (element m t p + weightOf label unc majority l t p [(e, w)])%Z.
Proof.
  unfold bump. simpl. destruct (unc e l); simpl; [|lia].
  unfold cmAddTo. destruct (label e l), (majority l), t, p; simpl; lia.
Qed.

Lemma weightOf_app label unc majority l t p a b :
  weightOf label unc majority l t p (a ++ b) = (weightOf label unc majority l t p a + weightOf label unc majority l t p b)%Z.
Proof. induction a as [|[e w] a IH]; simpl; auto. destruct (unc e l && _ && _); lia. Qed.

Lemma weightOf_negated label unc majority l t p a :
  weightOf label unc majority l t p (negated a) = (- weightOf label unc majority l t p a)%Z.
Proof. induction a as [|[e w] a IH]; simpl; auto. destruct (unc e l && _ && _); lia. Qed.

(** Each element of a vector is changed. *)
Definition bumped label unc majority labels e w (v v' : list confusion) : Prop :=
  length v' = length v /\ forall i l m, nth_error labels i = Some l -> nth_error v i = Some m ->
    nth_error v' i = Some (bump label unc majority e w l m).

Lemma bumped_exact label unc majority labels e w c v v' :
  bumped label unc majority labels e w v v' -> exact_vector label unc majority labels c v ->
  exact_vector label unc majority labels (c ++ [(e, w)]) v'.
Proof.
  intros (HL & HB) (HL1 & HE). split; [lia|]. intros i l m Hl Hm t p.
  assert (exists m0, nth_error v i = Some m0) as (m0 & Hm0).
  { apply aget_Some. rewrite <- HL. apply nth_error_Some. congruence. }
  specialize (HB i l m0 Hl Hm0). rewrite Hm in HB. injection HB as ->.
  rewrite bump_element, weightOf_app, (HE i l m0 Hl Hm0). auto.
Qed.

Lemma seq_nth_error n i l : nth_error (seq 0 n) i = Some l -> l = i /\ i < n.
Proof.
  intros H. assert (i < n) by (rewrite <- (seq_length n 0); apply nth_error_Some; congruence).
  apply (nth_error_nth _ _ 0) in H. rewrite seq_nth in H; auto.
Qed.

Section Adding.
Variables (lm : labelMatrix) (label : nat -> nat -> bool) (majority : list nat) (counts : list N).
Hypothesis HR : represents lm label.
Hypothesis HC : length counts = lmRows lm * lmCols lm.
Hypothesis HM : StronglySorted lt majority.

Local Notation unc := (uncovered (lmCols lm) counts).

Lemma counts_get e l : e < lmRows lm -> l < lmCols lm ->
  aget counts (e * lmCols lm + l) = Some (nth (e * lmCols lm + l) counts 0%N).
Proof. intros. apply nth_error_nth'. rewrite HC. nia. Qed.

Lemma add_spec li e w v : e < lmRows lm -> length v <= lmCols lm ->
  (forall l, l < lmCols lm -> liDeref (Nat.iter l liNext li) = Some (label e l)) ->
  exists v', addInternally li majority counts (e * lmCols lm) w (length v) v = Some v' /\
    bumped label unc (mem majority) (seq 0 (lmCols lm)) e w v v'.
Proof.
  intros He Hv HD. unfold addInternally.
  set (body := fun (i : nat) (st : labelIter * fwd * list confusion) => _).
  destruct (forN_inv (fun i st => let '(a, b, v') := st in a = Nat.iter i liNext li /\ b = fwdAt majority i /\
     length v' = length v /\ (forall j m, nth_error v j = Some m ->
       nth_error v' j = Some (if j <? i then bump label unc (mem majority) e w j m else m))) body (length v) 0 (li, fwdNew majority, v))
    as (((a & b) & v') & E & (_ & _ & HL & H)).
  - repeat split; auto.
  - intros i ((a & b) & v') Hi (-> & -> & HL & H). unfold body. rewrite counts_get by lia.
    assert (unc e i = (nth (e * lmCols lm + i) counts 0 =? 0)%N) as U by reflexivity. rewrite <- U.
    destruct (aget_Some v i) as (m & Em); [lia|]. unfold aget in Em.
    assert (Em' : aget v' i = Some m) by (unfold aget; rewrite (H _ _ Em), (Nat.ltb_irrefl i); auto).
    destruct (unc e i) eqn:HU.
    + rewrite HD by lia. rewrite Em'. rewrite aset_Some by lia. eexists. split; [reflexivity|].
      rewrite fwdAt_deref by auto. fold (mem majority i). rewrite upd_length. repeat split; auto.
      intros j m1 Hj. rewrite nth_error_upd. destruct (Nat.eqb_spec i j).
      * subst j. rewrite Em in Hj. injection Hj as <-. destruct (Nat.ltb_spec i (length v')); [|lia]. simpl.
        destruct (Nat.ltb_spec i (S i)); [|lia]. unfold bump. rewrite HU. auto.
      * simpl. rewrite (H _ _ Hj). destruct (Nat.ltb_spec j i), (Nat.ltb_spec j (S i)); auto; lia.
    + eexists. split; [reflexivity|]. repeat split; auto.
      intros j m1 Hj. rewrite (H _ _ Hj). destruct (Nat.ltb_spec j i), (Nat.ltb_spec j (S i)); auto; try lia.
      assert (j = i) as -> by lia. rewrite Em in Hj. injection Hj as <-. unfold bump. rewrite HU. auto.
  - rewrite E. exists v'. split; auto. split; auto. intros i l m Hl Hm.
    apply seq_nth_error in Hl. destruct Hl as (-> & Hl). rewrite (H _ _ Hm).
    assert (i < length v) by (apply nth_error_Some; congruence).
    destruct (Nat.ltb_spec i (0 + length v)); auto; lia.
Qed.

Lemma vecAdd_spec e w v : e < lmRows lm -> length v <= lmCols lm ->
  exists v', vecAdd lm majority counts e w v = Some v' /\ bumped label unc (mem majority) (seq 0 (lmCols lm)) e w v v'.
Proof.
  intros He Hv. unfold vecAdd. destruct (represents_row lm label e HR He) as (li & -> & HD). apply add_spec; auto.
Qed.

Lemma lowerBound_spec row x : StronglySorted lt row -> lowerBound row x = filter (fun y => x <=? y) row.
Proof.
  induction row as [|h t IH]; simpl; intros HS; auto. inversion HS as [|? ? HS1 HF]; subst.
  destruct (Nat.ltb_spec h x), (Nat.leb_spec x h); try lia; auto. f_equal.
  clear - HF H. induction t as [|y t IH]; simpl; auto. pose proof (Forall_inv HF); apply Forall_inv_tail in HF; simpl in *.
  destruct (Nat.leb_spec x y); [|lia]. f_equal. auto.
Qed.

Lemma filter_filter_le row p x : p <= x -> filter (fun y => x <=? y) (filter (fun y => p <=? y) row) = filter (fun y => x <=? y) row.
Proof.
  intros. induction row as [|h t IH]; simpl; auto. destruct (Nat.leb_spec p h), (Nat.leb_spec x h); simpl; auto; try lia.
  - destruct (Nat.leb_spec x h); [|lia]. f_equal. auto.
  - destruct (Nat.leb_spec x h); [lia|]. auto.
Qed.

Lemma filter_SS {A} (R : A -> A -> Prop) f l : StronglySorted R l -> StronglySorted R (filter f l).
Proof.
  induction l as [|h t IH]; simpl; intros HS; auto. inversion HS as [|? ? HS1 HF]; subst.
  destruct (f h); auto. constructor; auto. rewrite Forall_forall in *. intros x Hx. apply filter_In in Hx. apply HF. tauto.
Qed.

Lemma head_mem row x : StronglySorted lt row ->
  match filter (fun y => x <=? y) row with [] => false | h :: _ => h =? x end = mem row x.
Proof.
  intros HS. unfold mem. rewrite <- (fwdAt_deref row x HS), (fwdAt_spec row x HS). reflexivity.
Qed.

Lemma sorted_nth_le l : StronglySorted le l -> forall i j x y, i <= j -> nth_error l i = Some x -> nth_error l j = Some y -> x <= y.
Proof.
  induction 1 as [|h t HS IH HF]; intros i j x y Hij Hi Hj; [destruct i; discriminate|].
  destruct i, j; simpl in *; try lia.
  - injection Hi as <-. injection Hj as <-. lia.
  - injection Hi as <-. rewrite Forall_forall in HF. apply HF. eapply nth_error_In; eauto.
  - eapply (IH i j); eauto; lia.
Qed.

Lemma addToSubset_spec o e w v : e < lmRows lm -> valid_outputs (lmCols lm) o -> length v = numOutputs o ->
  exists v', vecAddToSubset lm majority counts o e w v = Some v' /\
    bumped label unc (mem majority) (labelsOf o) e w v v'.
Proof.
  intros He HO Hv. unfold vecAddToSubset. destruct o as [n|indices]; simpl in HO, Hv.
  - subst n. destruct (represents_row lm label e HR He) as (li & -> & HD). simpl. apply add_spec; auto. lia.
  - destruct HO as (HS & HF). simpl labelsOf.
    assert (HI : forall i, i < length indices -> exists l, aget indices i = Some l /\ l < lmCols lm).
    { intros i Hi. destruct (aget_Some indices i Hi) as (l & El). exists l. split; auto.
      rewrite Forall_forall in HF. apply HF. eapply nth_error_In; eauto. }
    pose (Inv := fun (i previous : nat) (v' : list confusion) =>
      (forall j l, i <= j -> nth_error indices j = Some l -> previous <= l) /\
      length v' = length v /\ (forall j l m, nth_error indices j = Some l -> nth_error v j = Some m ->
         nth_error v' j = Some (if j <? i then bump label unc (mem majority) e w l m else m))).
    assert (Step1 : forall i p v' l m, i < length indices -> aget indices i = Some l -> nth_error v i = Some m -> Inv i p v' -> unc e l = true ->
              Inv (S i) l (upd v' i (cmAddTo m (label e l) (mem majority l) w))).
    { intros i p v' l m Hi El Em (Hp & HL & H) HU. split; [|split].
      - intros j l1 Hj Hl1. apply (sorted_nth_le indices HS i j); auto; lia.
      - rewrite upd_length. auto.
      - intros j l1 m1 Hj Hm1. rewrite nth_error_upd. destruct (Nat.eqb_spec i j).
        + subst j. unfold aget in El. rewrite El in Hj. injection Hj as <-. rewrite Em in Hm1. injection Hm1 as <-.
          destruct (Nat.ltb_spec i (length v')); [|lia]. simpl. destruct (Nat.ltb_spec i (S i)); [|lia].
          unfold bump. rewrite HU. auto.
        + simpl. rewrite (H _ _ _ Hj Hm1). destruct (Nat.ltb_spec j i), (Nat.ltb_spec j (S i)); auto; lia. }
    assert (Step2 : forall i p v' l, i < length indices -> aget indices i = Some l -> Inv i p v' -> unc e l = false -> Inv (S i) p v').
    { intros i p v' l Hi El (Hp & HL & H) HU. split; [|split]; auto.
      - intros j l1 Hj Hl1. apply (Hp j l1); auto; lia.
      - intros j l1 m1 Hj Hm1. rewrite (H _ _ _ Hj Hm1).
        destruct (Nat.ltb_spec j i), (Nat.ltb_spec j (S i)); auto; try lia.
        assert (j = i) as -> by lia. unfold aget in El. rewrite El in Hj. injection Hj as <-. unfold bump. rewrite HU. auto. }
    assert (Init : Inv 0 0 v).
    { split; [intros; lia|]. split; auto. }
    assert (Get : forall i v' p l m, i < length indices -> aget indices i = Some l -> nth_error v i = Some m -> Inv i p v' -> aget v' i = Some m).
    { intros i v' p l m Hi El Em (_ & _ & H). unfold aget. rewrite (H i l m El Em), (Nat.ltb_irrefl i). auto. }
    assert (Fin : forall p v', Inv (0 + length indices) p v' -> bumped label unc (mem majority) indices e w v v').
    { intros p v' (_ & HL & H). split; auto. intros i l m Hl Hm. rewrite (H _ _ _ Hl Hm).
      assert (i < length indices) by (apply nth_error_Some; congruence).
      destruct (Nat.ltb_spec i (0 + length indices)); auto; lia. }
    assert (Row := HR). unfold represents in Row. destruct (lmValues lm) as [values|rows].
    + destruct Row as (HL & HD). set (body := fun (i : nat) (st : fwd * nat * list confusion) => _).
      destruct (forN_inv (fun i st => let '(a, p, v') := st in a = fwdAt majority p /\ Inv i p v') body
                  (length indices) 0 (fwdNew majority, 0, v)) as (((a & p) & v') & E & (_ & H)).
      * split; auto.
      * intros i ((a & p) & v') Hi (-> & H). unfold body. destruct (HI i) as (l & El & Hl); [lia|]. rewrite El.
        rewrite counts_get by lia. fold (unc e l). destruct (unc e l) eqn:HU.
        -- unfold aget at 1. rewrite HD by lia. rewrite fwdAt_advance by (apply (proj1 H i l); auto).
           destruct (aget_Some v i) as (m & Em); [lia|]. rewrite (Get i v' p l m) by (auto; lia).
           rewrite aset_Some by (rewrite (proj1 (proj2 H)); lia). eexists. split; [reflexivity|]. split; auto.
           rewrite fwdAt_deref by auto. fold (mem majority l). eapply Step1; eauto; lia.
        -- eexists. split; [reflexivity|]. split; auto. eapply Step2; eauto; lia.
      * rewrite E. exists v'. split; auto. eapply Fin; eauto.
    + destruct Row as (HL & HD). destruct (aget_Some rows e) as (row & Er); [lia|]. rewrite Er.
      destruct (HD e row Er) as (HSr & HIr). set (body := fun (i : nat) (st : list nat * fwd * nat * list confusion) => _).
      destruct (forN_inv (fun i st => let '(r, a, p, v') := st in r = filter (fun y => p <=? y) row /\ a = fwdAt majority p /\ Inv i p v') body
                  (length indices) 0 (row, fwdNew majority, 0, v)) as ((((r & a) & p) & v') & E & (_ & _ & H)).
      * split; [|split; auto]. clear. induction row; simpl; congruence.
      * intros i (((r & a) & p) & v') Hi (-> & -> & H). unfold body. destruct (HI i) as (l & El & Hl); [lia|]. rewrite El.
        rewrite counts_get by lia. fold (unc e l). destruct (unc e l) eqn:HU.
        -- assert (Hp : p <= l) by (apply (proj1 H i l); auto).
           rewrite (lowerBound_spec (filter (fun y => p <=? y) row)) by (apply filter_SS; auto).
           rewrite filter_filter_le by auto. rewrite head_mem by auto. rewrite fwdAt_advance by auto.
           destruct (aget_Some v i) as (m & Em); [lia|]. rewrite (Get i v' p l m) by (auto; lia).
           rewrite aset_Some by (rewrite (proj1 (proj2 H)); lia). eexists. split; [reflexivity|]. split; auto. split; auto.
           rewrite fwdAt_deref by auto. fold (mem majority l).
           replace (mem row l) with (label e l). { eapply Step1; eauto; lia. }
           destruct (mem row l) eqn:M.
           ++ apply mem_In in M. apply HIr in M. tauto.
           ++ apply mem_false in M. destruct (label e l) eqn:Y; auto. exfalso. apply M, HIr. auto.
        -- eexists. split; [reflexivity|]. split; auto. split; auto. eapply Step2; eauto; lia.
      * rewrite E. exists v'. split; auto. eapply Fin; eauto.
Qed.

End Adding.
