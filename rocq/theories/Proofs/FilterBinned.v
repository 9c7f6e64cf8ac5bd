(** Proofs about filtering binned feature vectors that do not store the examples in their sparse bin. *)
From Coq Require Import ZArith Arith List Bool Sorted Permutation Lia.
From Verif Require Import Lib.Arr Model.Search Model.Filter Spec.Search Spec.Filter Spec.FilterBinned Proofs.Search
  Proofs.SearchOrdinal Proofs.Filter Proofs.FilterRun Proofs.FilterFindings.
Import ListNotations.
Open Scope nat_scope.

(** ** Filtering by a coverage mask *)

Lemma keepBinned_sparse p t n : forall bins i ts bs s ts' bs' s', keepBinned p t n bins i ts bs s = (ts', bs', s') ->
  s <= s' /\ (length bs = S s \/ length bs <= s -> length bs' = S s' \/ length bs' <= s').
Proof.
  induction bins as [|ids bins IH]; intros i ts bs s ts' bs' s' H; cbn [keepBinned] in H.
  - injection H as <- <- <-. split; [lia|auto].
  - destruct (filter p ids) as [|i0 ids']; [apply IH in H; auto|]. apply IH in H. rewrite app_length in H. cbn [length] in H.
    destruct (Nat.leb_spec s (length bs)); destruct H as (H1 & H2); split; try lia; intros H3; apply H2; lia.
Qed.

Lemma mask_sparse :
  forall (isEqual : Z -> Z -> bool) (covered : nat -> bool) (thresholds : list Z) (bins : list (list nat)) (sparseBin : nat)
    (missing : list nat) (thresholds' : list Z) (bins' : list (list nat)) (sparseBin' : nat) (missing' : list nat),
    filterByMask isEqual covered (BinnedVec thresholds bins sparseBin missing) =
      BinnedVec thresholds' bins' sparseBin' missing' ->
    S sparseBin' = length bins'.
Proof.
  intros isEqual covered t b s m t' b' s' m' H. cbn [filterByMask] in H.
  destruct (keepBinned covered t (length b) b 0 [] [] s) as ((t1 & b1) & s1) eqn:E. apply keepBinned_sparse in E.
  cbn [length] in E. destruct E as (_ & E). specialize (E ltac:(lia)). destruct b1 as [|b0 b1]; [discriminate|].
  destruct (Nat.leb_spec (length (b0 :: b1)) s1) as [G|G]; injection H as _ <- <- _; cbn [length] in *; lia.
Qed.

(** ** Filtering by an interval *)

Lemma sorted_slice (l : list Z) a b : StronglySorted Z.lt l -> StronglySorted Z.lt (slice a b l).
Proof.
  intros H. unfold slice. assert (HS: StronglySorted Z.lt (skipn a l)).
  { revert a. induction H as [|x l H IH HF]; intros [|a]; cbn; try constructor; auto. }
  revert HS. generalize (skipn a l) (b - a). clear. intros l n. revert n.
  induction l as [|x l IH]; intros [|n] HS; cbn; try constructor; inversion HS as [|y ys H1 H2]; subst; auto.
  rewrite Forall_forall in *. intros z Hz. apply H2. rewrite <- (firstn_skipn n l). apply in_or_app. auto.
Qed.

Lemma sorted_le (l : list Z) : StronglySorted Z.lt l -> forall p q s t, nth_error l p = Some s -> nth_error l q = Some t ->
  p <= q -> (s <= t)%Z.
Proof.
  induction 1 as [|x l H IH HF]; intros [|p] [|q] s t E1 E2 L; try discriminate; try lia; cbn in E1, E2.
  - assert (s = t) by congruence. lia.
  - injection E1 as <-. rewrite Forall_forall in HF. apply nth_error_In in E2. specialize (HF _ E2). lia.
  - apply (IH p q s t); auto. lia.
Qed.

Lemma position_between thresholds n v p first last : StronglySorted Z.lt thresholds -> n = S (length thresholds) -> p < n ->
  (forall t, nth_error thresholds p = Some t -> (v <= t)%Z) ->
  (forall t q, p = S q -> nth_error thresholds q = Some t -> (t < v)%Z) ->
  first < last -> last <= n ->
  (between_thresholds thresholds first last v = true <-> first <= p < last).
Proof.
  intros SO L Hp HU HL H1 H2. unfold between_thresholds. rewrite andb_true_iff.
  assert (A: match first with 0 => true | S q => match nth_error thresholds q with Some t => (t <? v)%Z | None => false end end = true
    <-> first <= p).
  { destruct first as [|q]; [split; [lia|auto]|]. destruct (nth_error thresholds q) as [t|] eqn:E; [|apply nth_error_None in E; lia].
    rewrite Z.ltb_lt. split; intros H.
    - destruct (Nat.le_gt_cases (S q) p); auto. exfalso.
      destruct (nth_error thresholds p) as [u|] eqn:Eu; [|apply nth_error_None in Eu; lia].
      assert ((u <= t)%Z) by (apply (sorted_le _ SO p q); auto; lia). specialize (HU u eq_refl). lia.
    - destruct p as [|p]; [lia|]. destruct (nth_error thresholds p) as [u|] eqn:Eu; [|apply nth_error_None in Eu; lia].
      assert ((t <= u)%Z) by (apply (sorted_le _ SO q p); auto; lia). specialize (HL u p eq_refl Eu). lia. }
  assert (B: match last with 0 => false | S q => match nth_error thresholds q with Some t => (v <=? t)%Z | None => true end end = true
    <-> p < last).
  { destruct last as [|q]; [lia|]. destruct (nth_error thresholds q) as [t|] eqn:E.
    - rewrite Z.leb_le. assert (q < length thresholds) by (apply nth_error_Some; congruence). split; intros H0.
      + destruct (Nat.le_gt_cases (S q) p) as [G|G]; auto. exfalso. destruct p as [|p]; [lia|].
        destruct (nth_error thresholds p) as [u|] eqn:Eu; [|apply nth_error_None in Eu; lia].
        assert ((t <= u)%Z) by (apply (sorted_le _ SO q p); auto; lia). specialize (HL u p eq_refl Eu). lia.
      + destruct (nth_error thresholds p) as [u|] eqn:Eu; [|apply nth_error_None in Eu; lia].
        assert ((u <= t)%Z) by (apply (sorted_le _ SO p q); auto; lia). specialize (HU u eq_refl). lia.
    - apply nth_error_None in E. split; [lia|auto]. }
  rewrite A, B. tauto.
Qed.

Lemma interval_binned :
  forall (isEqual : Z -> Z -> bool) (col : column) (examples : list nat) (thresholds : list Z) (bins : list (list nat))
    (sparseBin : nat) (missing : list nat) (reuse : bool) (start end_ : nat) (inverse : bool),
    represents col examples (BinnedVec thresholds bins sparseBin missing) ->
    start <= end_ <= length bins -> start = 0 \/ end_ = length bins ->
    exists first last vec,
      (forall k, k < length bins -> ((if inverse then ~ (start <= k < end_) else start <= k < end_) <-> first <= k < last)) /\
      last <= length bins /\
      filterByInterval isEqual reuse start end_ inverse (BinnedVec thresholds bins sparseBin missing) = Some vec /\
      if first <? last
      then vec <> EqualVec /\ represents col (filter (fun i => between_thresholds thresholds first last (valueOf col i)) (valued col examples)) vec
      else vec = EqualVec.
Proof.
  intros isEqual col examples t b s m reuse start end_ inverse (M1 & M2 & R) HB HE. cbn [missingOf] in M1, M2.
  destruct (open_interval start end_ inverse (length b) HB HE) as (first & last & E & HO & HI). unfold inside in HI.
  exists first, last. cbn [filterByInterval]. rewrite E. destruct R as ((ND & NB & IB) & SO & L & HS & HV).
  destruct (Nat.ltb_spec first last) as [LT|GE].
  2: { exists EqualVec. split; [exact HI|]. split; [lia|]. destruct (Nat.ltb_spec 0 (last - first)); [lia|]. auto. }
  destruct (Nat.ltb_spec 0 (last - first)) as [_|?]; [|lia]. cbv zeta.
  set (s1 := if first <=? s then s - first else 0). set (s2 := if last - first <=? s1 then last - first - 1 else s1).
  eexists. split; [exact HI|]. split; [lia|]. split; [reflexivity|]. split; [discriminate|].
  set (p := fun i => between_thresholds t first last (valueOf col i)).
  assert (HP: forall i k, In i (valued col examples) -> k < length b ->
    (forall u, nth_error t k = Some u -> (valueOf col i <= u)%Z) ->
    (forall u q, k = S q -> nth_error t q = Some u -> (u < valueOf col i)%Z) -> (p i = true <-> first <= k < last)).
  { intros i k Hi Hk H1 H2. apply (position_between t (length b)); auto. lia. }
  assert (VV: valued col (filter p (valued col examples)) = filter p (valued col examples)).
  { apply filter_app_ext. intros x Hx. apply filter_In in Hx. destruct Hx as (Hx & _). apply filter_In in Hx. apply Hx. }
  assert (S2: s2 < last - first) by (unfold s2; destruct (Nat.leb_spec (last - first) s1); lia).
  assert (LB: length (slice first last b) = last - first) by (apply slice_length; lia).
  cbn [represents missingOf]. split; [constructor|]. split.
  { intros i. split; [intros []|]. intros (H1 & H2). apply filter_In in H1. destruct H1 as (H1 & _). apply filter_In in H1.
    destruct H1 as (_ & H1). unfold hasValue in H1. rewrite H2 in H1. discriminate. }
  rewrite VV. unfold binned_vector.
  assert (BK: forall k ids i, nth_error b k = Some ids -> In i ids -> In i (valued col examples) /\
    k < length b /\ (forall u, nth_error t k = Some u -> (valueOf col i <= u)%Z) /\
    (forall u q, k = S q -> nth_error t q = Some u -> (u < valueOf col i)%Z)).
  { intros k ids i E1 H1. assert (IC: In i (valued col examples)) by (apply IB, in_concat; exists ids; split; auto; eapply nth_error_In; eauto).
    split; [auto|]. destruct (HV i IC) as (q & P1 & P2 & P3 & P4 & P5).
    assert (q = k).
    { destruct (Nat.eq_dec q s) as [Es|Ns]; [symmetry; eapply P5; eauto|]. destruct (P4 Ns) as (k' & ids' & Hk' & E' & Hi').
      assert (k' = q) by lia. subst k'. eapply concat_position; eauto. }
    subst q. auto. }
  split; [split; [apply NoDup_filter; auto|split; [apply NoDup_slice; auto|]]|].
  { intros i Hi. apply between_slice in Hi. destruct Hi as (k & ids & Hk & E1 & H1). destruct (BK k ids i E1 H1) as (B1 & B2 & B3 & B4).
    apply filter_In. split; [auto|]. apply (HP i k); auto. }
  split; [apply sorted_slice; auto|].
  split; [rewrite LB; assert (length (slice first (last - 1) t) = last - 1 - first) by (apply slice_length; lia); lia|].
  split; [rewrite LB; auto|].
  intros i Hi. apply filter_In in Hi. destruct Hi as (Hi & Hp). destruct (HV i Hi) as (q & P1 & P2 & P3 & P4 & P5).
  apply (HP i q Hi P1 P2 P3) in Hp. exists (q - first). rewrite LB. split; [lia|]. split; [|split; [|split]].
  - intros u Eu. assert (q - first < last - 1 - first) by (assert (L1: length (slice first (last - 1) t) = last - 1 - first) by (apply slice_length; lia); rewrite <- L1; apply nth_error_Some; congruence).
    rewrite slice_nth in Eu by lia. apply P2. rewrite <- Eu. f_equal. lia.
  - intros u q' Eq Eu. assert (q' < last - 1 - first) by lia. rewrite slice_nth in Eu by lia. apply (P3 u (first + q')); auto. lia.
  - intros N. assert (NS: q <> s).
    { intros ->. apply N. unfold s2, s1. destruct (Nat.leb_spec first s); [|lia]. destruct (Nat.leb_spec (last - first) (s - first)); lia. }
    destruct (P4 NS) as (k & ids & Hk & E1 & H1). exists (q - first), ids. split; [lia|]. split; [|auto].
    rewrite slice_nth by lia. rewrite <- E1. f_equal. lia.
  - intros _ k ids E1 H1. assert (Hk: k < last - first) by (rewrite <- LB; apply nth_error_Some; congruence).
    rewrite slice_nth in E1 by lia. assert (first + k = q); [|lia].
    destruct (Nat.eq_dec q s) as [Es|Ns]; [eapply P5; eauto|]. destruct (P4 Ns) as (k' & ids' & Hk' & E' & Hi').
    assert (k' = q) by lia. subst k'. eapply concat_position; [exact NB|exact E1|exact E'|exact H1|exact Hi'].
Qed.
