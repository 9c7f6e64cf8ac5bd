(** Proofs about label binning with non-decomposable loss functions. *)
From Coq Require Import QArith Qabs List Bool Arith Permutation Sorted Lia Lqa.
From Verif Require Import Lib.Arr Spec.Stopping Model.BoostEvaluation Model.BoostBinning Model.BoostNonDecomposable
  Model.BoostNDBinning Spec.BoostEvaluation Spec.BoostBinning Spec.BoostNonDecomposable Spec.BoostNDBinning
  Proofs.Stopping Proofs.BoostEvaluation Proofs.BoostBinning Proofs.BoostNonDecomposable.
Import ListNotations.
Open Scope Q_scope.

Local Opaque triangularNumber.

(** ** Sums *)
Lemma tri_inj r c r' c' : (r <= c)%nat -> (r' <= c')%nat -> (triangularNumber c + r = triangularNumber c' + r')%nat -> c = c' /\ r = r'.
Proof.
  intros H H' E. assert (c = c').
  { destruct (Nat.lt_trichotomy c c') as [L|[L|L]]; auto.
    - pose proof (tri_mono (S c) c' L) as M. rewrite tri_S in M. lia.
    - pose proof (tri_mono (S c') c L) as M. rewrite tri_S in M. lia. }
  subst. split; auto. lia.
Qed.

Lemma hessianAt_upd H r c x i j n : (r <= c)%nat -> (c < n)%nat -> (triangularNumber n <= length H)%nat ->
  hessianAt (upd H (triangularNumber c + r) (nth (triangularNumber c + r) H 0 + x)) i j ==
  hessianAt H i j + (if (Nat.max i j =? c)%nat && (Nat.min i j =? r)%nat then x else 0).
Proof.
  intros Hr Hc HL. pose proof (tri_bound r c n Hr Hc) as B. unfold hessianAt. rewrite nth_upd by lia.
  destruct (Nat.eqb_spec (triangularNumber c + r) (triangularNumber (Nat.max i j) + Nat.min i j)) as [E|E].
  - apply tri_inj in E; [|lia|lia]. destruct E as (<- & <-). rewrite !Nat.eqb_refl. simpl. reflexivity.
  - destruct (Nat.eqb_spec (Nat.max i j) c), (Nat.eqb_spec (Nat.min i j) r); simpl; try ring. subst. congruence.
Qed.

Definition formOf (n : nat) (H : list Q) (v : nat -> Q) : Q :=
  sumQ n (fun i => sumQ n (fun j => hessianAt H i j * (v i * v j))).

Lemma sumQ_at n k (f : nat -> Q) : (k < n)%nat -> (forall i, (i < n)%nat -> i <> k -> f i == 0) -> sumQ n f == f k.
Proof. intros H E. apply diagonal_sum; auto. Qed.

Lemma formOf_upd n H r c x v : (r <= c)%nat -> (c < n)%nat -> (triangularNumber n <= length H)%nat ->
  formOf n (upd H (triangularNumber c + r) (nth (triangularNumber c + r) H 0 + x)) v ==
  formOf n H v + (if (r =? c)%nat then 1 else 2) * (x * (v r * v c)).
Proof.
  intros Hr Hc HL. unfold formOf.
  rewrite (sumQ_ext n _ (fun i => sumQ n (fun j => hessianAt H i j * (v i * v j)) +
     sumQ n (fun j => (if (Nat.max i j =? c)%nat && (Nat.min i j =? r)%nat then x else 0) * (v i * v j)))).
  2:{ intros i Hi. rewrite <- sumQ_plus. apply sumQ_ext. intros j Hj. rewrite (hessianAt_upd H r c x i j n) by auto. ring. }
  rewrite sumQ_plus. apply Qplus_comp; [reflexivity|].
  destruct (Nat.eqb_spec r c) as [->|N].
  - rewrite (sumQ_at n c); [|auto|].
    + rewrite (sumQ_at n c); [|auto|].
      * rewrite Nat.max_id, Nat.min_id, Nat.eqb_refl. simpl. ring.
      * intros j Hj Nj. destruct (Nat.eqb_spec (Nat.max c j) c), (Nat.eqb_spec (Nat.min c j) c); simpl; try ring. lia.
    + intros i Hi Ni. apply sumQ_zero. intros j Hj.
      destruct (Nat.eqb_spec (Nat.max i j) c), (Nat.eqb_spec (Nat.min i j) c); simpl; try ring. lia.
  - rewrite (sumQ_ext n _ (fun i => (if (i =? r)%nat then x * (v r * v c) else 0) + (if (i =? c)%nat then x * (v r * v c) else 0))).
    + rewrite sumQ_plus, !(sumQ_pick n _ (fun _ => x * (v r * v c))) by lia. ring.
    + intros i Hi. destruct (Nat.eqb_spec i r) as [->|Nr]; [|destruct (Nat.eqb_spec i c) as [->|Nc]].
      * destruct (Nat.eqb_spec r c); [lia|]. rewrite (sumQ_at n c); [|auto|].
        -- rewrite Nat.max_r, Nat.min_l, !Nat.eqb_refl by lia. simpl. ring.
        -- intros j Hj Nj. destruct (Nat.eqb_spec (Nat.max r j) c), (Nat.eqb_spec (Nat.min r j) r); simpl; try ring. lia.
      * rewrite (sumQ_at n r); [|lia|].
        -- rewrite Nat.max_l, Nat.min_r, !Nat.eqb_refl by lia. simpl. ring.
        -- intros j Hj Nj. destruct (Nat.eqb_spec (Nat.max c j) c), (Nat.eqb_spec (Nat.min c j) r); simpl; try ring. lia.
      * rewrite sumQ_zero; [ring|]. intros j Hj.
        destruct (Nat.eqb_spec (Nat.max i j) c), (Nat.eqb_spec (Nat.min i j) r); simpl; try ring. lia.
Qed.

Lemma sumQ_upd n G k x v : (k < n)%nat -> (n <= length G)%nat ->
  sumQ n (fun m => nth m (upd G k (nth k G 0 + x)) 0 * v m) == sumQ n (fun m => nth m G 0 * v m) + x * v k.
Proof.
  intros Hk HL. rewrite <- (sumQ_pick n k (fun _ => x * v k) Hk), <- sumQ_plus. apply sumQ_ext. intros i Hi. rewrite nth_upd by lia.
  rewrite (Nat.eqb_sym k i). destruct (Nat.eqb_spec i k) as [->|]; ring.
Qed.

Lemma addAt_Some a i x : (i < length a)%nat -> addAt a i x = Some (upd a i (nth i a 0 + x)).
Proof. intros H. unfold addAt. rewrite (aget_nth a i 0) by auto. apply aset_Some. auto. Qed.

(** A symmetric double sum consists of the diagonal and twice the triangle below. *)
Lemma triangle n (f : nat -> nat -> Q) : (forall i j, f i j == f j i) ->
  sumQ n (fun i => sumQ n (fun j => f i j)) == sumQ n (fun i => f i i) + 2 * sumQ n (fun i => sumQ i (fun j => f i j)).
Proof.
  intros E. induction n as [|n IH]; [reflexivity|]. rewrite !sumQ_S.
  rewrite (sumQ_ext n (fun i => sumQ (S n) (fun j => f i j)) (fun i => sumQ n (fun j => f i j) + f i n)) by (intros; apply sumQ_S).
  rewrite sumQ_plus, IH. rewrite (sumQ_ext n (fun i => f i n) (fun i => f n i)) by (intros; apply E). lra.
Qed.

(** ** Removing empty bins *)
Lemma removeEmptyBins_spec counts binIndices K : (K <= length counts)%nat -> (K <= length binIndices)%nat ->
  exists counts' binIndices' n, removeEmptyBins counts binIndices K = Some (counts', binIndices', n) /\
    length counts' = length counts /\ length binIndices' = length binIndices /\ (n <= K)%nat /\
    (forall k, (k < K)%nat -> (0 < nth k counts 0)%nat -> (nth k binIndices' 0 < n)%nat) /\
    (forall k k', (k < k')%nat -> (k' < K)%nat -> (0 < nth k counts 0)%nat -> (nth k binIndices' 0 < nth k' binIndices' 0)%nat) /\
    (forall w : nat -> Q, sumQ n (fun m => weightOf (nth m counts' 0%nat) * w m) ==
                          sumQ K (fun k => weightOf (nth k counts 0%nat) * w (nth k binIndices' 0%nat))).
Proof.
  intros HC HB. unfold removeEmptyBins.
  match goal with |- context[forN ?m ?s ?f ?z] => destruct (forN_inv (fun i (st : list nat * list nat * nat) => let '(c, b, n) := st in
    length c = length counts /\ length b = length binIndices /\ (n <= i)%nat /\
    (forall k, (i <= k)%nat -> nth k c 0%nat = nth k counts 0%nat) /\
    (forall k, (k < i)%nat -> (0 < nth k counts 0)%nat -> (nth k b 0 < n)%nat) /\
    (forall k k', (k < k')%nat -> (k' < i)%nat -> (0 < nth k counts 0)%nat -> (nth k b 0 < nth k' b 0)%nat) /\
    (forall w : nat -> Q, sumQ n (fun m => weightOf (nth m c 0%nat) * w m) ==
                          sumQ i (fun k => weightOf (nth k counts 0%nat) * w (nth k b 0%nat)))) f m s z)
    as (((c & b) & n) & E & L1 & L2 & Hn & U & B & M & W) end.
  - repeat split; auto; intros; try lia.
  - intros i ((c, b), n) Hi (L1 & L2 & Hn & U & B & M & W).
    rewrite aset_Some by lia. rewrite (aget_nth c i 0%nat) by lia. rewrite U by lia.
    assert (B' : forall k, (k < i)%nat -> nth k (upd b i n) 0%nat = nth k b 0%nat).
    { intros k Hk. rewrite nth_upd by lia. destruct (Nat.eqb_spec i k); [lia|reflexivity]. }
    assert (Bi : nth i (upd b i n) 0%nat = n) by (rewrite nth_upd by lia; rewrite Nat.eqb_refl; auto).
    assert (M' : forall k k', (k < k')%nat -> (k' < S i)%nat -> (0 < nth k counts 0)%nat -> (nth k (upd b i n) 0 < nth k' (upd b i n) 0)%nat).
    { intros k k' H1 H2 H3. destruct (Nat.eq_dec k' i) as [->|].
      - rewrite Bi, B' by lia. apply B; auto.
      - rewrite !B' by lia. apply M; auto. lia. }
    assert (W' : forall w : nat -> Q, sumQ i (fun k => weightOf (nth k counts 0%nat) * w (nth k (upd b i n) 0%nat)) ==
                 sumQ i (fun k => weightOf (nth k counts 0%nat) * w (nth k b 0%nat))).
    { intros w. apply sumQ_ext. intros k Hk. rewrite B' by auto. reflexivity. }
    destruct (Nat.ltb_spec 0 (nth i counts 0%nat)) as [P|P].
    + rewrite aset_Some by lia. eexists. split; [reflexivity|]. cbv beta iota. rewrite !upd_length.
      split; [auto|]. split; [auto|]. split; [lia|]. split; [|split; [|split; [exact M'|]]].
      * intros k Hk. rewrite nth_upd by lia. destruct (Nat.eqb_spec n k); [lia|]. apply U. lia.
      * intros k Hk P'. destruct (Nat.eq_dec k i) as [->|]; [rewrite Bi; lia|]. rewrite B' by lia. specialize (B k ltac:(lia) P'). lia.
      * intros w. rewrite Nat.add_1_r. rewrite sumQ_S, (sumQ_S i), W', Bi, <- W. rewrite nth_upd by lia. rewrite Nat.eqb_refl.
        apply Qplus_comp; [|reflexivity]. apply sumQ_ext. intros k Hk. rewrite nth_upd by lia.
        destruct (Nat.eqb_spec n k); [lia|reflexivity].
    + eexists. split; [reflexivity|]. cbv beta iota. rewrite !upd_length.
      split; [auto|]. split; [auto|]. split; [lia|]. split; [|split; [|split; [exact M'|]]].
      * intros k Hk. apply U. lia.
      * intros k Hk P'. destruct (Nat.eq_dec k i) as [->|]; [lia|]. rewrite B' by lia. apply B; auto. lia.
      * intros w. rewrite (sumQ_S i), W', Bi, <- W. replace (nth i counts 0%nat) with 0%nat by lia.
        change (weightOf 0) with 0. ring.
  - exists c, b, n. rewrite E. simpl in *. auto 10.
Qed.

(** ** Aggregation *)

(** The score of an output. *)
Definition scoreAt (w : nat -> Q) (bins : list (option nat)) (i : nat) : Q :=
  match nth i bins None with Some k => w k | None => 0 end.

Lemma scoreAt_nth w bins i : nth i (binScores w bins) 0 = scoreAt w bins i.
Proof.
  unfold scoreAt, binScores. set (f := fun b : option nat => match b with Some k => w k | None => 0 end).
  change (nth i (map f bins) (f None) = f (nth i bins None)). apply map_nth.
Qed.

Definition slot (maxB : nat) (b : option nat) : nat := match b with Some k => k | None => maxB end.

Lemma counting_loop bins n maxB K N indices counts :
  length bins = n -> (n <= N)%nat -> length indices = N -> (K <= length counts)%nat ->
  (forall i k, (i < n)%nat -> nth i bins None = Some k -> (k < K)%nat) ->
  (forall k, (k < K)%nat -> nth k counts 0%nat = 0%nat) ->
  exists indices' counts',
    forN n 0 (fun labelIndex '(indices, counts) =>
      let* bin := aget bins labelIndex in
      match bin with
      | Some binIndex =>
          let* n := aget counts binIndex in
          let* counts := aset counts binIndex (n + 1)%nat in
          let* indices := aset indices labelIndex binIndex in
          Some (indices, counts)
      | None =>
          let* indices := aset indices labelIndex maxB in
          Some (indices, counts)
      end) (indices, counts) = Some (indices', counts') /\
    length indices' = N /\ length counts' = length counts /\
    (forall i, (i < n)%nat -> nth i indices' 0%nat = slot maxB (nth i bins None)) /\
    (forall i k, (i < n)%nat -> nth i bins None = Some k -> (0 < nth k counts' 0)%nat) /\
    (forall w : nat -> Q, sumQ K (fun k => weightOf (nth k counts' 0%nat) * w k) ==
       sumQ n (fun i => match nth i bins None with Some k => w k | None => 0 end)).
Proof.
  intros LB HN LI HK BK HZ.
  match goal with |- context[forN ?m ?s ?f ?z] => destruct (forN_inv (fun j (st : list nat * list nat) => let '(ix, ct) := st in
    length ix = N /\ length ct = length counts /\
    (forall i, (i < j)%nat -> nth i ix 0%nat = slot maxB (nth i bins None)) /\
    (forall i k, (i < j)%nat -> nth i bins None = Some k -> (0 < nth k ct 0)%nat) /\
    (forall w : nat -> Q, sumQ K (fun k => weightOf (nth k ct 0%nat) * w k) ==
       sumQ j (fun i => match nth i bins None with Some k => w k | None => 0 end))) f m s z) as ((ix & ct) & E & L1 & L2 & V & P & W) end.
  - split; [auto|]. split; [auto|]. split; [intros; lia|]. split; [intros; lia|]. intros w. rewrite sumQ_0. apply sumQ_zero.
    intros k Hk. rewrite HZ by auto. change (weightOf 0) with 0. ring.
  - intros j (ix, ct) Hj (L1 & L2 & V & P & W). rewrite (aget_nth bins j None) by lia.
    destruct (nth j bins None) as [k|] eqn:Bj.
    + pose proof (BK j k ltac:(lia) Bj) as Hk. rewrite (aget_nth ct k 0%nat) by lia. rewrite aset_Some by lia. rewrite aset_Some by lia.
      eexists. split; [reflexivity|]. cbv beta iota. rewrite !upd_length. split; [auto|]. split; [auto|]. split; [|split].
      * intros i Hi. rewrite nth_upd by lia. destruct (Nat.eqb_spec j i) as [->|]; [rewrite Bj; auto|]. apply V. lia.
      * intros i k' Hi Ek. rewrite nth_upd by lia. destruct (Nat.eqb_spec k k') as [->|]; [lia|]. destruct (Nat.eq_dec i j) as [->|]; [congruence|].
        apply (P i); auto. lia.
      * intros w. rewrite sumQ_S, Bj, <- W. rewrite <- (sumQ_pick K k w Hk), <- sumQ_plus. apply sumQ_ext. intros i Hi.
        rewrite nth_upd by lia. rewrite (Nat.eqb_sym k i). destruct (Nat.eqb_spec i k) as [->|]; [|ring].
        change (weightOf (nth k ct 0%nat + 1)) with (natQ (nth k ct 0%nat + 1)). rewrite natQ_S. unfold weightOf, natQ. ring.
    + rewrite aset_Some by lia. eexists. split; [reflexivity|]. cbv beta iota. rewrite upd_length. split; [auto|]. split; [auto|]. split; [|split].
      * intros i Hi. rewrite nth_upd by lia. destruct (Nat.eqb_spec j i) as [->|]; [rewrite Bj; auto|]. apply V. lia.
      * intros i k Hi Ek. destruct (Nat.eq_dec i j) as [->|]; [congruence|]. apply (P i); auto. lia.
      * intros w. rewrite sumQ_S, Bj, <- W. ring.
  - exists ix, ct. rewrite E. simpl in *. auto 10.
Qed.

Section Aggregate.
  Variables (g h : list Q) (bins : list (option nat)) (n K m maxB N : nat) (rho : list nat).
  Hypotheses (LB : length bins = n) (Lg : (n <= length g)%nat) (Lh : (triangularNumber n <= length h)%nat) (HN : (n <= N)%nat).
  Hypotheses (KM : (K <= maxB)%nat) (mK : (m <= K)%nat) (Lr : (K <= length rho)%nat).
  Hypothesis BK : forall i k, (i < n)%nat -> nth i bins None = Some k -> (k < K)%nat.
  Hypothesis RM : forall i k, (i < n)%nat -> nth i bins None = Some k -> (nth k rho 0 < m)%nat.
  Hypothesis RI : forall i j k l, (i < n)%nat -> (j < n)%nat -> nth i bins None = Some k -> nth j bins None = Some l ->
    nth k rho 0%nat = nth l rho 0%nat -> k = l.

  Let R k := nth k rho 0%nat.
  Let mapped b := match b with Some k => Some (R k) | None => None end.
  Let x (v : nat -> Q) (i : nat) : Q := scoreAt (fun k => v (R k)) bins i.

  Lemma x_Some v i k : nth i bins None = Some k -> x v i = v (R k).
  Proof. intros E. unfold x, scoreAt. rewrite E. auto. Qed.
  Lemma x_None v i : nth i bins None = None -> x v i = 0.
  Proof. intros E. unfold x, scoreAt. rewrite E. auto. Qed.

  Lemma diagonal_loop indices G H : length indices = N -> (m <= length G)%nat -> (triangularNumber m <= length H)%nat ->
    (forall i, (i < n)%nat -> nth i indices 0%nat = slot maxB (nth i bins None)) ->
    (forall k, (k < m)%nat -> nth k G 0 = 0) -> (forall k, (k < triangularNumber m)%nat -> nth k H 0 = 0) ->
    exists indices' G' H', aggregateDiagonal g h n rho maxB (indices, G, H) = Some (indices', G', H') /\
      length indices' = N /\ length G' = length G /\ length H' = length H /\
      (forall i, (i < n)%nat -> nth i indices' 0%nat = slot maxB (mapped (nth i bins None))) /\
      (forall v, sumQ m (fun k => nth k G' 0 * v k) == sumQ n (fun i => nth i g 0 * x v i)) /\
      (forall v, formOf m H' v == sumQ n (fun i => hessianAt h i i * (x v i * x v i))).
  Proof.
    intros LI LG LH VI ZG ZH. unfold aggregateDiagonal.
    match goal with |- context[forN ?a ?s ?f ?z] => destruct (forN_inv (fun j (st : list nat * list Q * list Q) => let '(ix, G', H') := st in
      length ix = N /\ length G' = length G /\ length H' = length H /\
      (forall i, (i < n)%nat -> nth i ix 0%nat = slot maxB (if (i <? j)%nat then mapped (nth i bins None) else nth i bins None)) /\
      (forall v, sumQ m (fun k => nth k G' 0 * v k) == sumQ j (fun i => nth i g 0 * x v i)) /\
      (forall v, formOf m H' v == sumQ j (fun i => hessianAt h i i * (x v i * x v i)))) f a s z) as (((ix & G') & H') & E & L1 & L2 & L3 & V & SG & SH) end.
    - split; [auto|]. split; [auto|]. split; [auto|]. split; [|split].
      + intros i Hi. simpl. auto.
      + intros v. rewrite sumQ_0. apply sumQ_zero. intros k Hk. rewrite ZG by auto. ring.
      + intros v. rewrite sumQ_0. apply sumQ_zero. intros i Hi. apply sumQ_zero. intros j Hj. unfold hessianAt. rewrite ZH; [ring|].
        apply tri_bound; lia.
    - intros j ((ix, G'), H') Hj (L1 & L2 & L3 & V & SG & SH).
      rewrite (aget_nth ix j 0%nat) by lia. rewrite V by lia. rewrite Nat.ltb_irrefl.
      destruct (nth j bins None) as [k|] eqn:Bj; cbn [slot].
      + pose proof (BK j k ltac:(lia) Bj) as Hk. pose proof (RM j k ltac:(lia) Bj) as Hm. fold (R k) in Hm.
        destruct (Nat.eqb_spec k maxB) as [|_]; [lia|]. cbn [negb].
        rewrite (aget_nth rho k 0%nat) by lia. fold (R k). rewrite aset_Some by lia. rewrite (aget_nth g j 0) by lia.
        rewrite addAt_Some by lia. rewrite diag_index.
        pose proof (tri_bound j j n ltac:(lia) ltac:(lia)) as T1. pose proof (tri_bound (R k) (R k) m ltac:(lia) ltac:(lia)) as T2.
        rewrite (aget_nth h _ 0) by lia. rewrite diag_index. rewrite addAt_Some by lia.
        eexists. split; [reflexivity|]. cbv beta iota. rewrite !upd_length. split; [auto|]. split; [auto|]. split; [auto|]. split; [|split].
        * intros i Hi. rewrite nth_upd by lia. destruct (Nat.eqb_spec j i) as [->|].
          -- destruct (Nat.ltb_spec i (S i)); [|lia]. rewrite Bj. reflexivity.
          -- rewrite V by auto. destruct (Nat.ltb_spec i j), (Nat.ltb_spec i (S j)); auto; lia.
        * intros v. rewrite sumQ_upd by lia. rewrite sumQ_S, SG, (x_Some v j k Bj). reflexivity.
        * intros v. rewrite formOf_upd by lia. rewrite Nat.eqb_refl. rewrite sumQ_S, SH, (x_Some v j k Bj).
          unfold hessianAt. rewrite Nat.max_id, Nat.min_id. ring.
      + destruct (Nat.eqb_spec maxB maxB) as [_|]; [|congruence]. cbn [negb]. eexists. split; [reflexivity|]. cbv beta iota.
        split; [auto|]. split; [auto|]. split; [auto|]. split; [|split].
        * intros i Hi. rewrite V by auto. destruct (Nat.eq_dec i j) as [->|].
          -- rewrite Nat.ltb_irrefl. destruct (Nat.ltb_spec j (S j)); [|lia]. rewrite Bj. auto.
          -- destruct (Nat.ltb_spec i j), (Nat.ltb_spec i (S j)); auto; lia.
        * intros v. rewrite sumQ_S, SG, (x_None v j Bj). ring.
        * intros v. rewrite sumQ_S, SH, (x_None v j Bj). ring.
    - exists ix, G', H'. rewrite E. simpl in *. split; [auto|]. split; [auto|]. split; [auto|]. split; [auto|]. split; [|auto].
      intros i Hi. rewrite V by auto. destruct (Nat.ltb_spec i n); [auto|lia].
  Qed.

  Let apart (v : nat -> Q) (i j : nat) : Q := if sameBin bins i j then 0 else hessianAt h i j * (x v i * x v j).

  Lemma apart_same v i j : sameBin bins i j = true -> apart v i j = 0.
  Proof. intros E. unfold apart. rewrite E. auto. Qed.
  Lemma apart_other v i j : sameBin bins i j = false -> apart v i j = hessianAt h i j * (x v i * x v j).
  Proof. intros E. unfold apart. rewrite E. auto. Qed.

  Lemma off_diagonal_loop indices H : length indices = N -> (triangularNumber m <= length H)%nat ->
    (forall i, (i < n)%nat -> nth i indices 0%nat = slot maxB (mapped (nth i bins None))) ->
    exists H', aggregateOffDiagonal h n indices maxB H = Some H' /\ length H' = length H /\
      (forall v, formOf m H' v == formOf m H v + 2 * sumQ n (fun i => sumQ i (fun j => apart v i j))).
  Proof.
    intros LI LH VI. unfold aggregateOffDiagonal.
    assert (SL : forall i k, (i < n)%nat -> nth i bins None = Some k -> nth i indices 0%nat = R k /\ (R k < m)%nat).
    { intros i k Hi Ek. rewrite VI by auto. rewrite Ek. split; [auto|]. apply (RM i); auto. }
    assert (SN : forall i, (i < n)%nat -> nth i bins None = None -> nth i indices 0%nat = maxB).
    { intros i Hi Ek. rewrite VI by auto. rewrite Ek. auto. }
    match goal with |- context[forN ?a ?s ?f ?z] => destruct (forN_inv (fun i (H' : list Q) =>
      length H' = length H /\
      (forall v, formOf m H' v == formOf m H v + 2 * sumQ i (fun i => sumQ i (fun j => apart v i j)))) f a s z) as (H' & E & L & S') end.
    - split; [auto|]. intros v. rewrite (sumQ_zero 1) by (intros; apply sumQ_zero; intros; lia). ring.
    - intros i H' Hi (L & S'). rewrite (aget_nth indices i 0%nat) by lia.
      destruct (nth i bins None) as [k|] eqn:Bi.
      + destruct (SL i k ltac:(lia) Bi) as (Ei & Hm). rewrite Ei. destruct (Nat.eqb_spec (R k) maxB) as [|_]; [lia|]. cbn [negb].
        match goal with |- context[forN ?a ?s ?f ?z] => destruct (forN_inv (fun j (H'' : list Q) =>
          length H'' = length H /\ (forall v, formOf m H'' v == formOf m H' v + 2 * sumQ j (fun j => apart v i j))) f a s z)
          as (H'' & E & L' & S'') end.
        * split; [auto|]. intros v. rewrite sumQ_0. ring.
        * intros j H'' Hj (L' & S''). rewrite (aget_nth indices j 0%nat) by lia.
          destruct (nth j bins None) as [l|] eqn:Bj.
          -- destruct (SL j l ltac:(lia) Bj) as (Ej & Hl). rewrite Ej. destruct (Nat.eqb_spec (R l) maxB) as [|_]; [lia|]. cbn [negb andb].
             destruct (Nat.eqb_spec (R k) (R l)) as [Er|Nr]; cbn [negb].
             ++ assert (k = l) by (apply (RI i j k l); auto; lia). subst l. eexists. split; [reflexivity|]. split; [auto|].
                intros v. rewrite sumQ_S, S'', apart_same; [ring|]. unfold sameBin. rewrite Bi, Bj, Nat.eqb_refl. auto.
             ++ pose proof (tri_any j i n ltac:(lia) ltac:(lia)) as T1.
                set (p := if (R k <? R l)%nat then (R k, R l) else (R l, R k)).
                assert (P : fst p = Nat.min (R k) (R l) /\ snd p = Nat.max (R k) (R l)).
                { unfold p. destruct (Nat.ltb_spec (R k) (R l)); cbn [fst snd]; lia. }
                destruct p as (r, c). cbn [fst snd] in P. destruct P as (-> & ->).
                rewrite (aget_nth h _ 0) by lia.
                pose proof (tri_bound (Nat.min (R k) (R l)) (Nat.max (R k) (R l)) m ltac:(lia) ltac:(lia)) as T2.
                rewrite addAt_Some by lia. eexists. split; [reflexivity|]. rewrite upd_length. split; [auto|].
                intros v. rewrite formOf_upd by lia. destruct (Nat.eqb_spec (Nat.min (R k) (R l)) (Nat.max (R k) (R l))); [lia|].
                rewrite sumQ_S, S'', (apart_other v i j).
                2:{ unfold sameBin. rewrite Bi, Bj. destruct (Nat.eqb_spec k l); [congruence|auto]. }
                rewrite (x_Some v i k Bi), (x_Some v j l Bj). unfold hessianAt. rewrite (Nat.max_l i j), (Nat.min_r i j) by lia.
                destruct (Nat.lt_ge_cases (R k) (R l)).
                ** rewrite (Nat.min_l (R k) (R l)), (Nat.max_r (R k) (R l)) by lia. ring.
                ** rewrite (Nat.min_r (R k) (R l)), (Nat.max_l (R k) (R l)) by lia. ring.
          -- rewrite (SN j ltac:(lia) Bj), Nat.eqb_refl. cbn [negb andb]. eexists. split; [reflexivity|]. split; [auto|].
             intros v. rewrite sumQ_S, S'', (apart_other v i j), (x_None v j Bj); [ring|]. unfold sameBin. rewrite Bi, Bj. auto.
        * exists H''. split; [auto|]. split; [auto|]. intros v. rewrite (sumQ_S i), (S'' v), (S' v). simpl. ring.
      + rewrite (SN i ltac:(lia) Bi), Nat.eqb_refl. cbn [negb]. eexists. split; [reflexivity|]. split; [auto|].
        intros v. rewrite (sumQ_S i), (S' v). rewrite (sumQ_zero i (fun j => apart v i j)); [ring|].
        intros j Hj. unfold apart, sameBin, x, scoreAt. rewrite Bi. destruct (nth j bins None); ring.
    - exists H'. split; [auto|]. split; [auto|]. intros v. rewrite S'. destruct n as [|n']; [reflexivity|].
      replace (1 + (S n' - 1))%nat with (S n') by lia. reflexivity.
  Qed.

  (** The quadratic form of the aggregated Hessians is that of the original Hessians without the interactions. *)
  Lemma aggregated_form v :
    sumQ n (fun i => hessianAt h i i * (x v i * x v i)) + 2 * sumQ n (fun i => sumQ i (fun j => apart v i j)) +
    2 * interactions h bins (binScores (fun k => v (R k)) bins) ==
    sumQ n (fun i => sumQ n (fun j => hessianAt h i j * (x v i * x v j))).
  Proof.
    rewrite (triangle n (fun i j => hessianAt h i j * (x v i * x v j))) by (intros; rewrite hessianAt_sym; ring).
    rewrite <- Qplus_assoc. apply Qplus_comp; [reflexivity|]. rewrite <- Qmult_plus_distr_r. apply Qmult_comp; [reflexivity|].
    unfold interactions. rewrite LB. rewrite <- sumQ_plus. apply sumQ_ext. intros i Hi. rewrite <- sumQ_plus. apply sumQ_ext. intros j Hj.
    rewrite !scoreAt_nth. unfold apart. fold (x v i). fold (x v j). destruct (sameBin bins i j); ring.
  Qed.
End Aggregate.

(** ** Systems of equations *)
Lemma addWeightedL2_spec coefficients n weights l2 : (n * n <= length coefficients)%nat -> (n <= length weights)%nat ->
  exists coefficients', addWeightedL2 coefficients n weights l2 = Some coefficients' /\
    length coefficients' = length coefficients /\
    (forall r c, (r <= c)%nat -> (c < n)%nat ->
       nth (c * n + r) coefficients' 0 == nth (c * n + r) coefficients 0 + (if (r =? c)%nat then weightOf (nth r weights 0%nat) * l2 else 0)).
Proof.
  intros HL HW. unfold addWeightedL2.
  match goal with |- context[forN ?m ?s ?f ?z] => destruct (forN_inv (fun i (co : list Q) =>
    length co = length coefficients /\
    (forall r c, (r <= c)%nat -> (c < n)%nat ->
       nth (c * n + r) co 0 == nth (c * n + r) coefficients 0 +
         (if (r =? c)%nat && (c <? i)%nat then weightOf (nth r weights 0%nat) * l2 else 0)))
    f m s z) as (co & E & L & V) end.
  - split; auto. intros. rewrite andb_false_r. lra.
  - intros i co Hi (L & V). pose proof (idx_bound n i i ltac:(lia) ltac:(lia)) as B.
    rewrite (aget_nth weights i 0%nat) by lia. rewrite addAt_Some by lia. eexists. split; [reflexivity|]. rewrite upd_length.
    split; auto. intros r c Hr Hc. rewrite nth_upd by lia. destruct (Nat.eqb_spec (i * n + i) (c * n + r)) as [Eq|Ne].
    + destruct (idx_inj n i i c r ltac:(lia) ltac:(lia) Eq) as (<- & <-). rewrite V by lia. rewrite Nat.eqb_refl.
      destruct (Nat.ltb_spec i i); [lia|]. destruct (Nat.ltb_spec i (S i)); [|lia]. cbn [andb]. ring.
    + rewrite V by auto. destruct (Nat.eqb_spec r c) as [->|]; cbn [andb]; [|reflexivity].
      destruct (Nat.ltb_spec c i), (Nat.ltb_spec c (S i)); try lia; try reflexivity.
      exfalso. apply Ne. replace c with i by lia. auto.
  - exists co. split; auto. split; auto. intros r c Hr Hc. rewrite V by auto. simpl.
    destruct (Nat.ltb_spec c n); [|lia]. rewrite andb_true_r. reflexivity.
Qed.

Lemma addWeightedL1_spec ordinates weights l1 : (length ordinates <= length weights)%nat ->
  exists ordinates', addWeightedL1 ordinates (length ordinates) weights l1 = Some ordinates' /\
    length ordinates' = length ordinates /\
    (forall i, (i < length ordinates)%nat ->
       nth i ordinates' 0 = nth i ordinates 0 + weightOf (nth i weights 0%nat) * getL1RegularizationWeight (nth i ordinates 0) l1).
Proof.
  intros HW. unfold addWeightedL1.
  match goal with |- context[forN ?m ?s ?f ?z] => destruct (forN_inv (fun j (o : list Q) =>
    length o = length ordinates /\
    (forall i, (i < length ordinates)%nat -> nth i o 0 =
       if (i <? j)%nat then nth i ordinates 0 + weightOf (nth i weights 0%nat) * getL1RegularizationWeight (nth i ordinates 0) l1
       else nth i ordinates 0)) f m s z) as (o & E & L & V) end.
  - split; auto.
  - intros j o Hj (L & V). rewrite (aget_nth weights j 0%nat) by lia. rewrite (aget_nth o j 0) by lia. rewrite aset_Some by lia.
    eexists. split; [reflexivity|]. rewrite upd_length. split; auto. intros i Hi. rewrite nth_upd by lia. rewrite !V by lia.
    destruct (Nat.eqb_spec j i) as [->|].
    + destruct (Nat.ltb_spec i i); [lia|]. destruct (Nat.ltb_spec i (S i)); [|lia]. auto.
    + destruct (Nat.ltb_spec i j), (Nat.ltb_spec i (S j)); auto; lia.
  - exists o. split; auto. split; auto. intros i Hi. rewrite V by auto. simpl.
    destruct (Nat.ltb_spec i (length ordinates)); [|lia]. reflexivity.
Qed.

Lemma weightedTerm_spec values weights n l1 l2 : (n <= length values)%nat -> (n <= length weights)%nat -> 0 <= l1 -> 0 <= l2 ->
  exists q, weightedRegularizationTerm values weights n l1 l2 = Some q /\
    q == sumQ n (fun i => weightOf (nth i weights 0%nat) * (l1 * Qabs (nth i values 0) + l2 / 2 * (nth i values 0 * nth i values 0))).
Proof.
  intros Hv Hw H1 H2. unfold weightedRegularizationTerm.
  assert (N1 : exists q, weightedL1Norm values weights n = Some q /\ q == sumQ n (fun i => Qabs (nth i values 0) * weightOf (nth i weights 0%nat))).
  { unfold weightedL1Norm. match goal with |- context[forN ?m ?s ?f ?z] => destruct (forN_inv (fun j q => q == sumQ j (fun i => Qabs (nth i values 0) * weightOf (nth i weights 0%nat))) f m s z)
      as (q & E & V) end; [reflexivity| |exists q; auto].
    intros j q Hj V. rewrite (aget_nth values j 0) by lia. rewrite (aget_nth weights j 0%nat) by lia.
    eexists. split; [reflexivity|]. rewrite sumQ_S, V. reflexivity. }
  assert (N2 : exists q, weightedL2NormPow values weights n = Some q /\ q == sumQ n (fun i => nth i values 0 * nth i values 0 * weightOf (nth i weights 0%nat))).
  { unfold weightedL2NormPow. match goal with |- context[forN ?m ?s ?f ?z] => destruct (forN_inv (fun j q => q == sumQ j (fun i => nth i values 0 * nth i values 0 * weightOf (nth i weights 0%nat))) f m s z)
      as (q & E & V) end; [reflexivity| |exists q; auto].
    intros j q Hj V. rewrite (aget_nth values j 0) by lia. rewrite (aget_nth weights j 0%nat) by lia.
    eexists. split; [reflexivity|]. rewrite sumQ_S, V. reflexivity. }
  destruct N1 as (q1 & -> & E1), N2 as (q2 & -> & E2).
  assert (T : exists t1, (if gtb l1 0 then Some (l1 * q1) else Some 0) = Some t1 /\ t1 == l1 * q1).
  { destruct (gtb l1 0) eqn:E; eexists; (split; [reflexivity|]); [reflexivity|]. apply gtb_false in E. setoid_replace l1 with 0 by lra. ring. }
  destruct T as (t1 & -> & ET).
  assert (T2 : exists t2, (if gtb l2 0 then Some (t1 + (1 # 2) * l2 * q2) else Some t1) = Some t2 /\ t2 == t1 + l2 / 2 * q2).
  { destruct (gtb l2 0) eqn:E; eexists; (split; [reflexivity|]); [field|]. apply gtb_false in E. setoid_replace l2 with 0 by lra. field. }
  destruct T2 as (t2 & -> & ET2). eexists. split; [reflexivity|]. rewrite ET2, ET, E1, E2, <- !sumQ_scale, <- sumQ_plus.
  apply sumQ_ext. intros. ring.
Qed.

Lemma copy_values solution values n : (n <= length solution)%nat -> (n <= length values)%nat ->
  exists values', forN n 0 (fun i values => let* value := aget solution i in aset values i value) values = Some values' /\
    length values' = length values /\ (forall k d, (k < n)%nat -> nth k values' d = nth k solution 0) /\
    (forall k d, (n <= k)%nat -> nth k values' d = nth k values d).
Proof.
  intros HS HV.
  match goal with |- context[forN ?m ?s ?f ?z] => destruct (forN_inv (fun j (vs : list Q) => length vs = length values /\
    (forall k d, (k < j)%nat -> nth k vs d = nth k solution 0) /\ (forall k d, (j <= k)%nat -> nth k vs d = nth k values d)) f m s z)
    as (vs & E & L & V & U) end.
  - split; [auto|]. split; [intros; lia|auto].
  - intros j vs Hj (L & V & U). rewrite (aget_nth solution j 0) by lia. rewrite aset_Some by lia. eexists. split; [reflexivity|].
    rewrite upd_length. split; [auto|]. split.
    + intros k d Hk. rewrite nth_upd by lia. destruct (Nat.eqb_spec j k) as [->|]; [auto|]. apply V. lia.
    + intros k d Hk. rewrite nth_upd by lia. destruct (Nat.eqb_spec j k); [lia|]. apply U. lia.
  - exists vs. auto.
Qed.

Lemma binnedValues_spec indices values bins rho maxB n : length bins = n -> (n <= length indices)%nat ->
  (forall i, (i < n)%nat -> nth i indices 0%nat = slot maxB (match nth i bins None with Some k => Some (nth k rho 0%nat) | None => None end)) ->
  (forall i k, (i < n)%nat -> nth i bins None = Some k -> (nth k rho 0 < length values)%nat) ->
  (maxB < length values)%nat -> nth maxB values 1 = 0 ->
  binnedValues indices values n = Some (binScores (fun k => nth (nth k rho 0%nat) values 0) bins).
Proof.
  intros LB LI V R HM Z. unfold binnedValues.
  match goal with |- forN ?m ?s ?f ?z = _ => destruct (forN_inv (fun j (p : list Q) =>
    p = binScores (fun k => nth (nth k rho 0%nat) values 0) (firstn j bins)) f m s z) as (p & -> & Hp) end.
  - reflexivity.
  - intros j p Hj ->. rewrite (aget_nth indices j 0%nat) by lia. rewrite V by lia.
    assert (FS : firstn (S j) bins = firstn j bins ++ [nth j bins None]) by (apply firstn_S_nth; apply nth_error_nth'; lia).
    rewrite FS. unfold binScores. rewrite map_app. cbn [map]. destruct (nth j bins None) as [k|] eqn:Bj; cbn [slot].
    + specialize (R j k ltac:(lia) Bj). rewrite (aget_nth values _ 0) by lia. eexists. split; reflexivity.
    + rewrite (aget_nth values maxB 1) by lia. rewrite Z. eexists. split; reflexivity.
  - rewrite Hp. simpl. rewrite firstn_all2 by lia. auto.
Qed.

Lemma sumQ_index n bins (w : nat -> Q) (f : Q -> Q) : f 0 == 0 ->
  sumQ n (fun i => match nth i bins None with Some k => f (w k) | None => 0 end) == sumQ n (fun i => f (scoreAt w bins i)).
Proof. intros Z. apply sumQ_ext. intros i Hi. unfold scoreAt. destruct (nth i bins None); [reflexivity|]. rewrite Z. reflexivity. Qed.

Lemma interactions_independent h bins values : independentBins h bins -> interactions h bins values == 0.
Proof.
  intros I. apply sumQ_zero. intros i Hi. apply sumQ_zero. intros j Hj. destruct (sameBin bins i j) eqn:E; [|reflexivity].
  rewrite (I i j Hj Hi E). ring.
Qed.

(** ** Rule evaluation *)
Lemma quadratic_zero l1 l2 g h bins n : length bins = n -> (forall i, (i < n)%nat -> nth i bins None = None) ->
  forall w, quadratic l1 l2 g h (seq 0 n) (binScores w bins) == 0.
Proof.
  intros LB BN w. rewrite (quality_quadratic l1 l2 g h (binScores w bins) (seq 0 n) n); [|rewrite seq_length; auto|reflexivity].
  assert (Z : forall i, (i < n)%nat -> nth i (binScores w bins) 0 = 0).
  { intros i Hi. rewrite scoreAt_nth. unfold scoreAt. rewrite BN by auto. auto. }
  rewrite !sumQ_zero; [ring| | |].
  - intros i Hi. rewrite Z by auto. change (Qabs 0) with 0. field.
  - intros i Hi. apply sumQ_zero. intros j Hj. rewrite !Z by auto. ring.
  - intros i Hi. rewrite Z by auto. ring.
Qed.

Lemma invert_mapping (counts rho : list nat) (K : nat) (score : nat -> Q) :
  (forall k k', (k < k')%nat -> (k' < K)%nat -> (0 < nth k counts 0)%nat -> (nth k rho 0 < nth k' rho 0)%nat) ->
  exists y, forall k, (k < K)%nat -> (0 < nth k counts 0)%nat -> y (nth k rho 0%nat) = score k.
Proof.
  intros M. exists (fun m => match find (fun k => (0 <? nth k counts 0)%nat && (nth k rho 0 =? m)%nat) (seq 0 K) with
    | Some k => score k | None => 0 end).
  intros k Hk Pk. destruct (find _ _) as [k'|] eqn:F.
  - apply find_some in F. destruct F as (I & F). apply in_seq in I. apply andb_true_iff in F. destruct F as (P & E).
    apply Nat.ltb_lt in P. apply Nat.eqb_eq in E. f_equal. destruct (Nat.lt_trichotomy k k') as [L|[L|L]]; auto.
    + specialize (M k k' L ltac:(lia) Pk). lia.
    + specialize (M k' k L ltac:(lia) P). lia.
  - exfalso. apply find_none with (x := k) in F; [|apply in_seq; lia]. rewrite Nat.eqb_refl in F.
    destruct (Nat.ltb_spec 0 (nth k counts 0%nat)); [discriminate|lia].
Qed.

Lemma evaluateBinsND_spec d dsysv c l1 l2 maxB N tmp s outputs g h criteria n :
  n = length criteria -> (n <= N)%nat -> 0 < binRatio c -> (1 <= minBins c)%nat -> binsFit c criteria maxB -> allocatedND N maxB s ->
  (maxB * maxB <= length tmp)%nat -> length outputs = n -> (n <= length g)%nat -> (triangularNumber n <= length h)%nat ->
  validSolver dsysv -> 0 <= l1 -> 0 <= l2 ->
  exists info bins, getLabelInfo c criteria n = Some info /\ createBins (Some d) info criteria n = Some bins /\ length bins = n /\
    (totalSolver dsysv -> evaluateBinsND (Some d) dsysv c maxB l1 l2 tmp s outputs g h criteria n <> None) /\
    (forall sc s', evaluateBinsND (Some d) dsysv c maxB l1 l2 tmp s outputs g h criteria n = Some (sc, s') ->
     allocatedND N maxB s' /\ scIndices sc = outputs /\ (exists score, scValues sc = binScores score bins) /\
     scQuality sc + interactions h bins (scValues sc) == quadratic l1 l2 g h (seq 0 n) (scValues sc) /\
     (l1 == 0 -> positiveSemidefinite n (regularised l2 h) -> independentBins h bins ->
      forall score', scQuality sc <= quadratic l1 l2 g h (seq 0 n) (binScores score' bins))).
Proof.
  intros Hn HN Hr Hm Hfit HA HT HO Hg Hh HS Hl1 Hl2.
  destruct (bins_valid d c criteria Hr Hm) as (info & bins & E & Eb & L & BZ & BN & BP & _).
  rewrite <- Hn in E, Eb, L, BZ, BN, BP. assert (Hfit' := Hfit). unfold binsFit in Hfit'. rewrite <- Hn in Hfit'. specialize (Hfit' info E). clear Hfit. rename Hfit' into Hfit.
  destruct HA as (A1 & A2 & A3 & A4 & A5 & A6 & A7).
  set (K := (numPositiveBins info + numNegativeBins info)%nat) in *.
  assert (BK : forall i k, (i < n)%nat -> nth i bins None = Some k -> (k < K)%nat).
  { intros i k Hi Hk. destruct (Q_dec (nth i criteria 0) 0) as [[Ni|Pi]|Zi].
    - destruct (BN i Hi Ni) as (k' & Ek & ?). rewrite Hk in Ek. injection Ek as <-. unfold K. lia.
    - destruct (BP i Hi Pi) as (k' & Ek & ?). rewrite Hk in Ek. injection Ek as <-. unfold K. lia.
    - rewrite BZ in Hk by auto. discriminate. }
  clear BZ BN BP. exists info, bins. split; [auto|]. split; [auto|]. split; [auto|].
  unfold evaluateBinsND. rewrite E. fold K. destruct (Nat.ltb_spec 0 K) as [KP|KZ].
  - destruct (setToZeros_spec 0%nat (ndCounts s) K ltac:(lia)) as (cnt0 & Ec & Lc & Zc). rewrite Ec. rewrite Eb.
    destruct (counting_loop bins n maxB K N (ndIndices s) cnt0 L ltac:(lia) A1 ltac:(lia) BK ltac:(intros; apply Zc; auto))
      as (ix & cnt & El & LI & LC & VI & PC & WC). rewrite El. cbv beta iota.
    destruct (removeEmptyBins_spec cnt (ndBinIndices s) K ltac:(lia) ltac:(lia))
      as (cnt' & rho & m & Er & LC' & LR & mK & RB & RM & WR). rewrite Er. cbv beta iota.
    assert (RBi : forall i k, (i < n)%nat -> nth i bins None = Some k -> (nth k rho 0 < m)%nat).
    { intros i k Hi Ek. apply RB; [apply (BK i); auto|apply (PC i); auto]. }
    assert (RI : forall i j k l, (i < n)%nat -> (j < n)%nat -> nth i bins None = Some k -> nth j bins None = Some l ->
      nth k rho 0%nat = nth l rho 0%nat -> k = l).
    { intros i j k l Hi Hj Ek El' Eq. destruct (Nat.lt_trichotomy k l) as [Q1|[Q1|Q1]]; auto.
      - specialize (RM k l Q1 (BK j l Hj El') (PC i k Hi Ek)). lia.
      - specialize (RM l k Q1 (BK i k Hi Ek) (PC j l Hj El')). lia. }
    destruct (setToZeros_spec 0 (ndGradients s) m ltac:(lia)) as (G0 & EG & LG & ZG). rewrite EG.
    pose proof (tri_mono m maxB ltac:(lia)) as TM.
    destruct (setToZeros_spec 0 (ndHessians s) (triangularNumber m) ltac:(lia)) as (H0 & EH & LH & ZH). rewrite EH.
    destruct (diagonal_loop g h bins n K m maxB N rho L Hg Hh ltac:(lia) ltac:(lia) ltac:(lia) ltac:(lia) BK RBi ix G0 H0 LI ltac:(lia) ltac:(lia) VI
      ltac:(intros; apply ZG; auto) ltac:(intros; apply ZH; auto)) as (ix' & G & H1 & E1 & LI' & LG' & LH1 & VI' & SG & SH1).
    rewrite E1. cbv beta iota.
    destruct (off_diagonal_loop g h bins n K m maxB N rho L Hg Hh ltac:(lia) ltac:(lia) ltac:(lia) ltac:(lia) BK RBi RI ix' H1 LI' ltac:(lia) VI')
      as (H & E2 & LH2 & SH2).
    rewrite E2.
    assert (SH : forall v, formOf m H v + 2 * interactions h bins (binScores (fun k => v (nth k rho 0%nat)) bins) ==
      sumQ n (fun i => sumQ n (fun j => hessianAt h i j * (scoreAt (fun k => v (nth k rho 0%nat)) bins i * scoreAt (fun k => v (nth k rho 0%nat)) bins j)))).
    { intros v. rewrite SH2, SH1. apply (aggregated_form h bins n rho L v). }
    assert (SW : forall (v : nat -> Q) f, f 0 == 0 -> sumQ m (fun k => weightOf (nth k cnt' 0%nat) * f (v k)) ==
      sumQ n (fun i => f (scoreAt (fun k => v (nth k rho 0%nat)) bins i))).
    { intros v f Zf. rewrite (WR (fun k => f (v k))). rewrite (WC (fun k => f (v (nth k rho 0%nat)))).
      apply (sumQ_index n bins (fun k => v (nth k rho 0%nat)) f Zf). }
    assert (mm : (m * m <= maxB * maxB)%nat) by (apply Nat.mul_le_mono; lia).
    destruct (copyCoefficients_spec H tmp m ltac:(lia) ltac:(lia)) as (co & Eco & Lco & Vco). rewrite Eco.
    destruct (addWeightedL2_spec co m cnt' l2 ltac:(lia) ltac:(lia)) as (co2 & Eco2 & Lco2 & Vco2). rewrite Eco2.
    destruct (copyOrdinates_spec G m ltac:(lia)) as (o & Eo & Lo & Vo). rewrite Eo.
    destruct (addWeightedL1_spec o cnt' l1 ltac:(lia)) as (o2 & Eo2 & Lo2 & Vo2). rewrite Lo in Eo2, Lo2, Vo2. rewrite Eo2.
    destruct (dsysv m co2 o2) as [solution|] eqn:Es.
    2:{ split; [|intros; discriminate]. intros TS _. apply (TS m co2 o2); auto. lia. }
    destruct (HS m co2 o2 solution Es) as (Lsol & Vsol).
    destruct (quality_spec solution G H m ltac:(lia) ltac:(lia) ltac:(lia)) as (q & Eq & Vq). rewrite Eq.
    destruct (weightedTerm_spec solution cnt' m l1 l2 ltac:(lia) ltac:(lia) Hl1 Hl2) as (t & Et & Vt). rewrite Et.
    destruct (copy_values solution (ndValues s) m ltac:(lia) ltac:(lia)) as (values & Ev & Lv & Vv & Uv). rewrite Ev.
    set (score := fun k => nth (nth k rho 0%nat) values 0).
    rewrite HO. rewrite (binnedValues_spec ix' values bins rho maxB n L ltac:(lia) VI').
    2:{ intros i k Hi Ek. specialize (RBi i k Hi Ek). lia. }
    2:{ lia. }
    2:{ rewrite Uv by lia. auto. }
    split; [intros _; discriminate|]. intros sc s' Esc. injection Esc as <- <-. cbn [scIndices scValues scQuality].
    split.
    { unfold allocatedND. cbn [ndIndices ndValues ndGradients ndHessians ndBinIndices ndCounts].
      split; [lia|]. split; [lia|]. split; [rewrite Uv by lia; auto|]. split; [lia|]. split; [lia|]. split; lia. }
    split; [auto|]. split; [exists score; reflexivity|].
    set (v := fun k => nth k solution 0).
    assert (XE : forall i, (i < n)%nat -> scoreAt score bins i = scoreAt (fun k => v (nth k rho 0%nat)) bins i).
    { intros i Hi. unfold scoreAt. destruct (nth i bins None) as [k|] eqn:Bi; [|auto]. unfold score, v. apply Vv. apply (RBi i); auto. }
    assert (BE : binScores score bins = binScores (fun k => v (nth k rho 0%nat)) bins).
    { apply (nth_ext _ _ 0 0); unfold binScores; rewrite !map_length; [auto|]. intros i Hi. rewrite L in Hi.
      fold (binScores score bins). fold (binScores (fun k => v (nth k rho 0%nat)) bins). rewrite !scoreAt_nth. auto. }
    fold score. rewrite BE. clear BE XE.
    assert (QQ : forall y, sumQ m (fun k => nth k G 0 * y k) + (1 # 2) * formOf m H y +
        sumQ m (fun k => weightOf (nth k cnt' 0%nat) * (l1 * Qabs (y k) + l2 / 2 * (y k * y k))) +
        interactions h bins (binScores (fun k => y (nth k rho 0%nat)) bins) ==
        quadratic l1 l2 g h (seq 0 n) (binScores (fun k => y (nth k rho 0%nat)) bins)).
    { intros y. rewrite (quality_quadratic l1 l2 g h _ (seq 0 n) n); [|rewrite seq_length; auto|reflexivity].
      rewrite (SG y). rewrite (SW y (fun z => l1 * Qabs z + l2 / 2 * (z * z))) by (change (Qabs 0) with 0; field).
      pose proof (SH y) as SHy.
      set (X := binScores (fun k => y (nth k rho 0%nat)) bins) in *.
      assert (XX : forall i, scoreAt (fun k => y (nth k rho 0%nat)) bins i = nth i X 0) by (intros; symmetry; apply scoreAt_nth).
      rewrite (sumQ_ext n _ (fun i => nth i g 0 * nth i X 0)) by (intros; rewrite XX; reflexivity).
      rewrite (sumQ_ext n (fun i => l1 * Qabs _ + _) (fun i => l1 * Qabs (nth i X 0) + l2 / 2 * (nth i X 0 * nth i X 0))) by (intros; rewrite XX; reflexivity).
      rewrite (sumQ_ext n _ (fun i => sumQ n (fun j => hessianAt h i j * (nth i X 0 * nth j X 0)))) in SHy
        by (intros; apply sumQ_ext; intros; rewrite !XX; reflexivity).
      rewrite <- SHy. ring. }
    split.
    + rewrite <- (QQ v). rewrite Vq, Vt. reflexivity.
    + intros Z1 PSD IND score'.
      destruct (invert_mapping cnt rho K score' RM) as (y & Hy).
      assert (BE : binScores score' bins = binScores (fun k => y (nth k rho 0%nat)) bins).
      { apply (nth_ext _ _ 0 0); unfold binScores; rewrite !map_length; [auto|]. intros i Hi. rewrite L in Hi.
        fold (binScores score' bins). fold (binScores (fun k => y (nth k rho 0%nat)) bins). rewrite !scoreAt_nth.
        unfold scoreAt. destruct (nth i bins None) as [k|] eqn:Bi; [|auto]. symmetry. apply Hy; [apply (BK i); auto|apply (PC i); auto]. }
      rewrite BE, <- (QQ y), (interactions_independent h bins _ IND).
      set (a := fun r c => hessianAt H r c + (if (r =? c)%nat then weightOf (nth r cnt' 0%nat) * l2 else 0)).
      assert (FA : forall z, form m a z z == formOf m H z + sumQ m (fun k => weightOf (nth k cnt' 0%nat) * (l2 * (z k * z k)))).
      { intros z. unfold form, formOf. rewrite <- sumQ_plus. apply sumQ_ext. intros i Hi.
        rewrite <- (sumQ_pick m i (fun _ => weightOf (nth i cnt' 0%nat) * (l2 * (z i * z i))) Hi), <- sumQ_plus.
        apply sumQ_ext. intros j Hj. unfold a. rewrite (Nat.eqb_sym i j). destruct (Nat.eqb_spec j i) as [->|]; ring. }
      assert (PA : forall z, sumQ m (fun k => nth k G 0 * z k) + (1 # 2) * formOf m H z +
        sumQ m (fun k => weightOf (nth k cnt' 0%nat) * (l1 * Qabs (z k) + l2 / 2 * (z k * z k))) == parabola m a (fun k => - nth k G 0) z).
      { intros z. unfold parabola. rewrite FA. rewrite (sumQ_ext m (fun i => - nth i G 0 * z i) (fun i => (-1) * (nth i G 0 * z i))) by (intros; ring).
        rewrite sumQ_scale.
        rewrite (sumQ_ext m (fun k => weightOf _ * (l1 * Qabs (z k) + _)) (fun k => (1 # 2) * (weightOf (nth k cnt' 0%nat) * (l2 * (z k * z k))))).
        - rewrite sumQ_scale. ring.
        - intros k Hk. rewrite Z1. field. }
      rewrite Vq, Vt. fold (formOf m H (fun k => nth k solution 0)). fold v.
      change (fun i => nth i G 0 * nth i solution 0) with (fun k => nth k G 0 * v k).
      change (fun i => weightOf (nth i cnt' 0%nat) * (l1 * Qabs (nth i solution 0) + l2 / 2 * (nth i solution 0 * nth i solution 0)))
        with (fun k => weightOf (nth k cnt' 0%nat) * (l1 * Qabs (v k) + l2 / 2 * (v k * v k))).
      rewrite !PA.
      assert (SYM : forall i j, a i j == a j i).
      { intros i j. unfold a. rewrite hessianAt_sym, (Nat.eqb_sym i j). destruct (Nat.eqb_spec j i) as [->|]; reflexivity. }
      assert (SOL : forall r, (r < m)%nat -> sumQ m (fun c => a r c * v c) == - nth r G 0).
      { intros r Hr'. pose proof (Vsol r Hr') as Vr. rewrite (Vo2 r Hr'), (Vo r Hr'), (getL1_zero _ l1 Z1) in Vr.
        rewrite <- (Qplus_0_r (- nth r G 0)). setoid_replace 0 with (weightOf (nth r cnt' 0%nat) * 0) at 2 by ring. rewrite <- Vr.
        apply sumQ_ext. intros k Hk. unfold v. apply Qmult_comp; [|reflexivity].
        rewrite Vco2 by lia. rewrite Vco by lia. unfold a, hessianAt. apply Qplus_comp; [reflexivity|].
        destruct (Nat.eqb_spec r k) as [->|]; [rewrite Nat.max_id, Nat.min_id, Nat.eqb_refl; reflexivity|].
        destruct (Nat.eqb_spec (Nat.min r k) (Nat.max r k)); [lia|reflexivity]. }
      rewrite (parabola_minimum m a SYM (fun k => - nth k G 0) v y SOL).
      set (z := fun i => y i - v i).
      assert (PZ : 0 <= form m a z z).
      { rewrite FA. rewrite (SW z (fun q => l2 * (q * q))) by ring.
        pose proof (SH z) as SHz. rewrite (interactions_independent h bins _ IND) in SHz.
        rewrite Qmult_0_r, Qplus_0_r in SHz. rewrite SHz. rewrite <- sumQ_plus.
        pose proof (PSD (scoreAt (fun k => z (nth k rho 0%nat)) bins)) as P. eapply Qle_trans; [exact P|].
        apply Qle_lteq. right. apply sumQ_ext. intros i Hi.
        set (X := scoreAt (fun k => z (nth k rho 0%nat)) bins).
        rewrite <- (sumQ_pick n i (fun _ => l2 * (X i * X i)) Hi), <- sumQ_plus.
        apply sumQ_ext. intros j Hj. unfold regularised. rewrite (Nat.eqb_sym i j). destruct (Nat.eqb_spec j i) as [->|]; ring. }
      lra.
  - assert (BN : forall i, (i < n)%nat -> nth i bins None = None).
    { intros i Hi. destruct (nth i bins None) as [k|] eqn:Bi; [|auto]. specialize (BK i k Hi Bi). lia. }
    destruct (setToZeros_spec maxB (ndIndices s) n ltac:(lia)) as (ix & Ei & Li & Vi). rewrite Ei.
    rewrite HO. rewrite (binnedValues_spec ix (ndValues s) bins [] maxB n L ltac:(lia)).
    2:{ intros i Hi. rewrite Vi by auto. rewrite BN by auto. auto. }
    2:{ intros i k Hi Ek. rewrite BN in Ek by auto. discriminate. }
    2:{ lia. }
    2:{ auto. }
    split; [intros _; discriminate|]. intros sc s' Esc. injection Esc as <- <-. cbn [scIndices scValues scQuality].
    split; [unfold allocatedND; cbn [ndIndices ndValues ndGradients ndHessians ndBinIndices ndCounts]; auto 10; split; [lia|auto 10]|].
    split; [auto|]. split; [eexists; reflexivity|]. split.
    + rewrite (quadratic_zero l1 l2 g h bins n L BN). unfold interactions. rewrite sumQ_zero; [ring|].
      intros i Hi. apply sumQ_zero. intros j Hj. unfold sameBin. rewrite (BN i) by lia. reflexivity.
    + intros _ _ _ score'. rewrite (quadratic_zero l1 l2 g h bins n L BN). lra.
Qed.

Lemma quadratic_zeros l1 l2 g h bins n : length bins = n -> quadratic l1 l2 g h (seq 0 n) (binScores (fun _ => 0) bins) == 0.
Proof.
  intros LB. rewrite (quality_quadratic l1 l2 g h _ (seq 0 n) n); [|rewrite seq_length; auto|reflexivity].
  assert (Z : forall i, nth i (binScores (fun _ => 0) bins) 0 = 0).
  { intros i. rewrite scoreAt_nth. unfold scoreAt. destruct (nth i bins None); auto. }
  rewrite !sumQ_zero; [ring| | |].
  - intros i Hi. rewrite Z. change (Qabs 0) with 0. field.
  - intros i Hi. apply sumQ_zero. intros j Hj. rewrite !Z. ring.
  - intros i Hi. rewrite Z. ring.
Qed.

Lemma complete_binned_nd :
  forall (dsysv : solver) (conversion : nat) (c : binningConfig) (l1 l2 : Q) (n : nat) (tmp : list Q) (s : ndBinnedState) (indices : list nat)
         (gradients hessians : list Q) (statistics : list tuple),
  validBinning c -> validSolver dsysv -> 0 <= l1 -> 0 <= l2 ->
  length indices = n -> length gradients = n -> length hessians = triangularNumber n ->
  length tmp = (getMaxBins c n * getMaxBins c n)%nat -> allocatedND n (getMaxBins c n) s ->
  diagonal gradients hessians = Some statistics -> binsFit c (individualScores l1 l2 statistics) (getMaxBins c n) ->
  exists info bins,
    getLabelInfo c (individualScores l1 l2 statistics) n = Some info /\
    createBins (Some conversion) info (individualScores l1 l2 statistics) n = Some bins /\ length bins = n /\
    (totalSolver dsysv -> evaluateCompleteBinnedND (Some conversion) dsysv c l1 l2 tmp s indices gradients hessians <> None) /\
    (forall sc s', evaluateCompleteBinnedND (Some conversion) dsysv c l1 l2 tmp s indices gradients hessians = Some (sc, s') ->
     allocatedND n (getMaxBins c n) s' /\ scIndices sc = indices /\ (exists score, scValues sc = binScores score bins) /\
     scQuality sc + interactions hessians bins (scValues sc) == quadratic l1 l2 gradients hessians (seq 0 n) (scValues sc) /\
     (l1 == 0 -> positiveSemidefinite n (regularised l2 hessians) -> independentBins hessians bins ->
      scQuality sc <= 0 /\ forall score', scQuality sc <= quadratic l1 l2 gradients hessians (seq 0 n) (binScores score' bins))).
Proof.
  intros dsysv d c l1 l2 n tmp s indices g h st (Hr & _ & Hm & _) HS H1 H2 LI Lg Lh LT HA ED HF.
  destruct (diagonal_spec g h ltac:(congruence)) as (st' & ED' & LS & _). rewrite ED in ED'. injection ED' as <-.
  unfold evaluateCompleteBinnedND. rewrite ED.
  destruct (forN_inv (fun j (cr : list Q) => cr = individualScores l1 l2 (firstn j st))
     (fun i criteria => let* t := aget st i in Some (criteria ++ [calculateOutputWiseScore l1 l2 t]))
     (length indices) 0 []) as (cr & -> & Ecr).
  - reflexivity.
  - intros j cr Hj ->. rewrite (aget_nth st j (0, 0)) by lia. eexists. split; [reflexivity|].
    rewrite (firstn_S_nth st j (nth j st (0, 0))) by (apply nth_error_nth'; lia).
    unfold individualScores. rewrite map_app. reflexivity.
  - simpl in Ecr. rewrite firstn_all2 in Ecr by lia. subst cr.
    assert (LC : length (individualScores l1 l2 st) = n) by (unfold individualScores; rewrite map_length; lia).
    rewrite LI.
    destruct (evaluateBinsND_spec d dsysv c l1 l2 (getMaxBins c n) n tmp s indices g h (individualScores l1 l2 st) n)
      as (info & bins & E1 & E2 & LB & T & V); auto; try lia.
    exists info, bins. split; [auto|]. split; [auto|]. split; [auto|]. split; [auto|].
    intros sc s' E. destruct (V sc s' E) as (V1 & V2 & V3 & V4 & V5). split; [auto|]. split; [auto|]. split; [auto|]. split; [auto|].
    intros Z PSD IND. split; [|intros; apply V5; auto].
    rewrite <- (quadratic_zeros l1 l2 g h bins n LB). apply V5; auto.
Qed.

(** ** Findings *)
Local Transparent triangularNumber.

Definition initialND (numOutputs maxBins : nat) : ndBinnedState :=
  mkNDState (repeat 7%nat numOutputs) (repeat 7 maxBins ++ [0]) (repeat 7 maxBins) (repeat 7 (triangularNumber maxBins))
    (repeat 7%nat maxBins) (repeat 7%nat maxBins).

Lemma psd_ones3 : positiveSemidefinite 3 (regularised 0 [2; 2; 2; 2; 2; 2]).
Proof.
  intros x. unfold sumQ, regularised, hessianAt, Qsum. simpl.
  set (a := x 0%nat). set (b := x 1%nat). set (c := x 2%nat). clearbody a b c.
  pose proof (Qsq_nonneg (a + b + c)). lra.
Qed.

(** The Hessians of three outputs that belong to the same bin. *)
Lemma interactions_refuted :
  exists (dsysv : solver) (conversion : nat) (c : binningConfig) (tmp : list Q) (s : ndBinnedState) (gradients hessians : list Q) (statistics : list tuple)
         (sc : scores) (s' : ndBinnedState),
  validBinning c /\ validSolver dsysv /\ length tmp = (getMaxBins c 3 * getMaxBins c 3)%nat /\ allocatedND 3 (getMaxBins c 3) s /\
  length gradients = 3%nat /\ length hessians = triangularNumber 3 /\ positiveSemidefinite 3 (regularised 0 hessians) /\
  diagonal gradients hessians = Some statistics /\ binsFit c (individualScores 0 0 statistics) (getMaxBins c 3) /\
  evaluateCompleteBinnedND (Some conversion) dsysv c 0 0 tmp s [0; 1; 2]%nat gradients hessians = Some (sc, s') /\
  scQuality sc < 0 < quadratic 0 0 gradients hessians [0; 1; 2]%nat (scValues sc).
Proof.
  exists (checked [1]), 0%nat, (mkBinning (1 # 25) 1 0), [7; 7; 7; 7], (initialND 3 2), [-2; -2; -2], [2; 2; 2; 2; 2; 2],
    [(-2, 2); (-2, 2); (-2, 2)]. eexists. eexists.
  split; [split; [reflexivity|]; split; [reflexivity|]; split; [simpl; lia|left; reflexivity]|].
  split; [apply checked_valid|]. split; [reflexivity|].
  split; [split; [|split; [|split; [|split; [|split; [|split]]]]]; vm_compute; reflexivity|].
  split; [reflexivity|]. split; [reflexivity|]. split; [exact psd_ones3|]. split; [vm_compute; reflexivity|].
  split; [intros info E; vm_compute in E; injection E as <-; vm_compute; lia|].
  split; [vm_compute; reflexivity|]. split; reflexivity.
Qed.

(** L1 regularisation of a bin with two outputs: the score is positive, although all gradients are. *)
Lemma binned_l1_refuted :
  exists (dsysv : solver) (conversion : nat) (c : binningConfig) (l1 : Q) (tmp : list Q) (s : ndBinnedState) (gradients hessians : list Q)
         (statistics : list tuple) (sc : scores) (s' : ndBinnedState),
  validBinning c /\ validSolver dsysv /\ 0 <= l1 /\ length tmp = (getMaxBins c 2 * getMaxBins c 2)%nat /\ allocatedND 2 (getMaxBins c 2) s /\
  length gradients = 2%nat /\ length hessians = triangularNumber 2 /\ diagonalHessians 2 hessians /\ 
  diagonal gradients hessians = Some statistics /\ Forall (fun t => 0 < fst t /\ 0 < snd t) statistics /\
  binsFit c (individualScores l1 0 statistics) (getMaxBins c 2) /\
  evaluateCompleteBinnedND (Some conversion) dsysv c l1 0 tmp s [0; 1]%nat gradients hessians = Some (sc, s') /\
  Forall (fun v => 0 < v) (scValues sc) /\ 0 < scQuality sc.
Proof.
  exists (checked [1]), 0%nat, (mkBinning (1 # 25) 1 0), 3, [7; 7; 7; 7], (initialND 2 2), [2; 2], [1; 0; 1],
    [(2, 1); (2, 1)]. eexists. eexists.
  split; [split; [reflexivity|]; split; [reflexivity|]; split; [simpl; lia|left; reflexivity]|].
  split; [apply checked_valid|]. split; [discriminate|]. split; [reflexivity|].
  split; [split; [|split; [|split; [|split; [|split; [|split]]]]]; vm_compute; reflexivity|].
  split; [reflexivity|]. split; [reflexivity|]. split.
  { intros r k Hr Hk Ne. assert (r = 0 /\ k = 1 \/ r = 1 /\ k = 0)%nat as [(-> & ->)|(-> & ->)] by lia; reflexivity. }
  split; [vm_compute; reflexivity|]. split; [repeat constructor|].
  split; [intros info E; vm_compute in E; injection E as <-; vm_compute; lia|].
  split; [vm_compute; reflexivity|]. split; [repeat constructor|reflexivity].
Qed.

(** A head with a single output, for which the statistics of another output are used. *)
Lemma fixed_binned_nd_refuted :
  exists (dsysv : solver) (conversion : nat) (c : binningConfig) (tmp : list Q) (s : ndBinnedState) (gradients hessians : list Q) (statistics : list tuple)
         (sorted : list (nat * Q)) (sc : scores) (s' : ndBinnedState),
  validBinning c /\ validSolver dsysv /\ length tmp = (getMaxBins c 1 * getMaxBins c 1)%nat /\ allocatedND 1 (getMaxBins c 1) s /\
  length gradients = 2%nat /\ length hessians = triangularNumber 2 /\ diagonalHessians 2 hessians /\
  diagonal gradients hessians = Some statistics /\ Forall (fun t => 0 < snd t) statistics /\
  partialSort 1 (outputWiseScores 0 0 statistics) sorted /\
  evaluateFixedBinnedND (Some conversion) dsysv c 0 0 tmp s 1 [0; 1]%nat gradients hessians sorted = Some (sc, s') /\
  scIndices sc = [1%nat] /\ scQuality sc < 0 < quadratic 0 0 gradients hessians [1%nat] (scValues sc) /\
  quadratic 0 0 gradients hessians [1%nat] [10] < -40.
Proof.
  exists (checked [-1]), 0%nat, (mkBinning (1 # 25) 1 0), [7; 7; 7; 7], (initialND 1 2), [1; -10], [1; 0; 1],
    [(1, 1); (-10, 1)], [(1%nat, 10); (0%nat, -1)]. eexists. eexists.
  split; [split; [reflexivity|]; split; [reflexivity|]; split; [simpl; lia|left; reflexivity]|].
  split; [apply checked_valid|]. split; [reflexivity|].
  split; [split; [|split; [|split; [|split; [|split; [|split]]]]]; vm_compute; reflexivity|].
  split; [reflexivity|]. split; [reflexivity|]. split.
  { intros r k Hr Hk Ne. assert (r = 0 /\ k = 1 \/ r = 1 /\ k = 0)%nat as [(-> & ->)|(-> & ->)] by lia; reflexivity. }
  split; [vm_compute; reflexivity|]. split; [repeat constructor|]. split.
  { split; [|split; [|split]].
    - vm_compute. apply perm_swap.
    - simpl. lia.
    - repeat constructor.
    - repeat constructor; unfold precedes; discriminate. }
  split; [vm_compute; reflexivity|]. split; [reflexivity|]. split; [split; reflexivity|reflexivity].
Qed.
