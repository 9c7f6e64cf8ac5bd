(** Proofs about the statistics used by boosting algorithms. *)
From Coq Require Import Reals List Bool Arith Lia Lra Sorted.
From Coq Require Cantor.
From Verif Require Import Lib.Arr Model.Containers Model.Losses Model.BoostStatistics Spec.Containers Spec.BoostStatistics
  Proofs.Containers.
Import ListNotations.
Open Scope R_scope.

(** ** Views *)

Lemma nth_upd_eq {A} (l : list A) i j v d :
  nth j (upd l i v) d = if (i =? j) && (i <? length l) then v else nth j l d.
Proof.
  pose proof (nth_error_upd l i j v) as E. destruct ((i =? j) && (i <? length l)).
  - apply nth_error_nth; auto.
  - destruct (nth_error l j) eqn:F.
    + rewrite (nth_error_nth _ _ d F). apply nth_error_nth; auto.
    + apply nth_error_None in F. rewrite !nth_overflow; rewrite ?upd_length; auto.
Qed.

Lemma aget_nth {A} (l : list A) i d : (i < length l)%nat -> aget l i = Some (nth i l d).
Proof. intros. unfold aget. apply nth_error_nth'. auto. Qed.

Lemma forN_pointwise {A} (d : A) (body : nat -> list A -> option (list A)) (s n : nat) (h : nat -> A -> A) a :
  (s + n <= length a)%nat ->
  (forall i a, (i < n)%nat -> (s + n <= length a)%nat -> body i a = Some (upd a (s + i) (h i (nth (s + i) a d)))) ->
  exists a', forN n 0 body a = Some a' /\ length a' = length a /\
    forall j, nth j a' d = if (s <=? j) && (j <? s + n) then h (j - s)%nat (nth j a d) else nth j a d.
Proof.
  intros Hl Hb.
  destruct (forN_inv (fun i a' => length a' = length a /\
    forall j, nth j a' d = if (s <=? j) && (j <? s + i) then h (j - s)%nat (nth j a d) else nth j a d)%nat body n 0 a)
    as (a' & E & L & N).
  - split; auto. intros j. destruct (Nat.leb_spec s j), (Nat.ltb_spec j (s + 0)); simpl; auto; lia.
  - intros i a' Hi (L & N). rewrite (Hb i a') by lia. eexists; split; [reflexivity|]. rewrite upd_length. split; auto.
    intros j. rewrite nth_upd_eq. destruct (Nat.eqb_spec (s + i) j).
    + subst j. destruct (Nat.ltb_spec (s + i) (length a')); [|lia]. simpl. rewrite N.
      destruct (Nat.leb_spec s (s + i)), (Nat.ltb_spec (s + i) (s + i)), (Nat.ltb_spec (s + i) (s + S i)); simpl; try lia.
      replace (s + i - s)%nat with i by lia. auto.
    + simpl. rewrite N. destruct (Nat.leb_spec s j), (Nat.ltb_spec j (s + i)), (Nat.ltb_spec j (s + S i)); simpl; auto; lia.
  - exists a'. simpl in *. auto.
Qed.

Lemma combineViews_spec {A B} (d : A) (e : B) f (a : list A) (b : list B) n : n = length a -> (n <= length b)%nat ->
  exists a', combineViews f a b n = Some a' /\ length a' = length a /\
    forall j, (j < n)%nat -> nth j a' d = f (nth j a d) (nth j b e).
Proof.
  intros -> Hb. unfold combineViews.
  match goal with |- context [forN ?m ?s ?g ?z] =>
    destruct (forN_pointwise d g 0 m (fun i x => f x (nth i b e)) z) as (a' & E & L & N) end; [lia| |].
  - intros i a0 Hi La. simpl Nat.add in *. rewrite (aget_nth a0 i d), (aget_nth b i e) by lia. apply aset_Some. lia.
  - exists a'. split; auto. split; auto. intros j Hj. rewrite N.
    destruct (Nat.leb_spec 0 j), (Nat.ltb_spec j (0 + length a)); simpl; try lia. rewrite Nat.sub_0_r. auto.
Qed.

Lemma combineViewsFrom_spec {A B} (d : A) (e : B) f (a : list A) s (b : list B) t indices n :
  (s + n <= length a)%nat -> (n <= length indices)%nat -> (forall i, (i < n)%nat -> (t + nth i indices 0 < length b)%nat) ->
  exists a', combineViewsFrom f a s b t indices n = Some a' /\ length a' = length a /\
    forall j, nth j a' d = if (s <=? j) && (j <? s + n) then f (nth j a d) (nth (t + nth (j - s) indices 0%nat) b e)
                           else nth j a d.
Proof.
  intros Ha Hi Hb. unfold combineViewsFrom.
  match goal with |- context [forN ?m ?z ?g ?y] =>
    destruct (forN_pointwise d g s m (fun i x => f x (nth (t + nth i indices 0%nat) b e)) y) as (a' & E & L & N) end; [lia| |].
  - intros i a0 Hi0 La. rewrite (aget_nth indices i 0%nat) by lia. rewrite (aget_nth a0 (s + i) d) by lia.
    rewrite (aget_nth b _ e) by auto. apply aset_Some. lia.
  - exists a'. auto.
Qed.

Lemma setViewToDifference_spec {A} (d : A) minus (a b c : list A) n :
  n = length a -> (n <= length b)%nat -> (n <= length c)%nat ->
  exists a', setViewToDifference minus a b c n = Some a' /\ length a' = length a /\
    forall j, (j < n)%nat -> nth j a' d = minus (nth j b d) (nth j c d).
Proof.
  intros -> Hb Hc. unfold setViewToDifference.
  match goal with |- context [forN ?m ?s ?g ?z] =>
    destruct (forN_pointwise d g 0 m (fun i x => minus (nth i b d) (nth i c d)) z) as (a' & E & L & N) end; [lia| |].
  - intros i a0 Hi La. simpl Nat.add in *. rewrite (aget_nth b i d), (aget_nth c i d) by lia. apply aset_Some. lia.
  - exists a'. split; auto. split; auto. intros j Hj. rewrite N.
    destruct (Nat.leb_spec 0 j), (Nat.ltb_spec j (0 + length a)); simpl; try lia. rewrite Nat.sub_0_r. auto.
Qed.

Lemma setViewToDifferenceFrom_spec {A} (d : A) minus (a : list A) s (b : list A) t (c : list A) u indices n :
  (s + n <= length a)%nat -> (n <= length indices)%nat -> (forall i, (i < n)%nat -> (t + nth i indices 0 < length b)%nat) ->
  (u + n <= length c)%nat ->
  exists a', setViewToDifferenceFrom minus a s b t c u indices n = Some a' /\ length a' = length a /\
    forall j, nth j a' d = if (s <=? j) && (j <? s + n)
                           then minus (nth (t + nth (j - s) indices 0%nat) b d) (nth (u + (j - s)) c d) else nth j a d.
Proof.
  intros Ha Hi Hb Hc. unfold setViewToDifferenceFrom.
  match goal with |- context [forN ?m ?z ?g ?y] =>
    destruct (forN_pointwise d g s m (fun i x => minus (nth (t + nth i indices 0%nat) b d) (nth (u + i) c d)) y)
      as (a' & E & L & N) end; [lia| |].
  - intros i a0 Hi0 La. rewrite (aget_nth indices i 0%nat) by lia.
    rewrite (aget_nth b _ d) by auto. rewrite (aget_nth c _ d) by lia. apply aset_Some. lia.
  - exists a'. auto.
Qed.

(** ** Sums *)

Lemma sumOf_app c1 c2 x : sumOf (c1 ++ c2) x = sumOf c1 x + sumOf c2 x.
Proof. induction c1 as [|p c1 IH]; simpl; [lra|]. rewrite IH. lra. Qed.
Lemma sumOf_negated c x : sumOf (negated c) x = - sumOf c x.
Proof. induction c as [|p c IH]; simpl; [lra|]. fold (negated c). rewrite IH. lra. Qed.
Lemma sumOf_single w i x : sumOf [single w i] x = weightOf w i * x i.
Proof. simpl. lra. Qed.
Lemma sumOf_ext c x y : (forall e, x e = y e) -> sumOf c x = sumOf c y.
Proof. intros H. induction c as [|p c IH]; simpl; auto. rewrite H, IH. auto. Qed.

(** ** Lawful classes *)

(** [read v k]: the value with the key [k] that is stored in a vector. [shape n v]: the vector is valid for [n] outputs.
    [keys n k]: a key that is valid for [n] outputs. [sub o k]: the key that corresponds to [k] if all outputs are considered.
    [stat row k]: the corresponding value of an example. *)
Record lawful {V Row K} (C : vectorClass V Row) (n : nat) (okRow : Row -> Prop) (okWeight : R -> Prop)
    (okOutputs : outputs -> Prop) (shape : nat -> V -> Prop) (keys : nat -> K -> Prop) (sub : outputs -> K -> K)
    (read : V -> K -> R) (stat : Row -> K -> R) : Prop := {
  law_new : forall m, shape m (vectorNew C m) /\ forall k, keys m k -> read (vectorNew C m) k = 0;
  law_clear : forall m v, shape m v -> shape m (vectorClear C v) /\ forall k, keys m k -> read (vectorClear C v) k = 0;
  law_add : forall row w v, okRow row -> (forall x, w = Some x -> okWeight x) -> shape n v ->
    exists v', vectorAdd C row w v = Some v' /\ shape n v' /\
      forall k, keys n k -> read v' k = read v k + weight1 w * stat row k;
  law_remove : forall row w v, okRow row -> (forall x, w = Some x -> okWeight x) -> shape n v ->
    exists v', vectorRemove C row w v = Some v' /\ shape n v' /\
      forall k, keys n k -> read v' k = read v k - weight1 w * stat row k;
  law_addToSubset : forall row o w v, okRow row -> (forall x, w = Some x -> okWeight x) -> okOutputs o ->
    shape (numOutputs o) v ->
    exists v', vectorAddToSubset C row o w v = Some v' /\ shape (numOutputs o) v' /\
      forall k, keys (numOutputs o) k -> read v' k = read v k + weight1 w * stat row (sub o k);
  law_addVector : forall m v1 v, shape m v1 -> shape m v ->
    exists v', vectorAddVector C v1 v = Some v' /\ shape m v' /\
      forall k, keys m k -> read v' k = read v k + read v1 k;
  law_difference : forall o v1 v2 v, okOutputs o -> shape n v1 -> shape (numOutputs o) v2 -> shape (numOutputs o) v ->
    exists v', vectorDifference C v1 o v2 v = Some v' /\ shape (numOutputs o) v' /\
      forall k, keys (numOutputs o) k -> read v' k = read v1 (sub o k) - read v2 k;
  law_sub : forall o k, okOutputs o -> keys (numOutputs o) k -> keys n (sub o k)
}.

Section Aggregation.
Context {V Row K : Type} (C : vectorClass V Row) (n : nat) (okRow : Row -> Prop) (okWeight : R -> Prop)
  (okOutputs : outputs -> Prop) (shape : nat -> V -> Prop) (keys : nat -> K -> Prop) (sub : outputs -> K -> K)
  (read : V -> K -> R) (stat : Row -> K -> R)
  (LAW : lawful C n okRow okWeight okOutputs shape keys sub read stat)
  (rows : list Row) (d : Row) (OKR : Forall okRow rows)
  (weights : weightVector) (OKW : forall i l, weights = IndividualWeights l -> (i < length l)%nat -> okWeight (nth i l 0))
  (LEN : numWeights weights = length rows).

Let statOf (k : K) (e : nat) : R := stat (nth e rows d) k.

Lemma row_ok i : (i < length rows)%nat -> aget rows i = Some (nth i rows d) /\ okRow (nth i rows d).
Proof. intros H. split; [apply aget_nth; auto|]. rewrite Forall_forall in OKR. apply OKR, nth_In. auto. Qed.

Lemma weight_ok i : (i < length rows)%nat -> exists w, weightAt weights i = Some w /\ weight1 w = weightOf weights i /\
  forall x, w = Some x -> okWeight x.
Proof.
  intros H. unfold weightAt. destruct weights as [m|l]; simpl in *.
  - exists None. repeat split; auto; discriminate.
  - rewrite (aget_nth l i 0) by lia. eexists; split; [reflexivity|]. split; auto. intros x [= <-]. apply (OKW i l); auto; lia.
Qed.

Lemma addStatistic_ok i v : (i < length rows)%nat -> shape n v ->
  exists v', addStatistic C rows weights v i = Some v' /\ shape n v' /\
    forall k, keys n k -> read v' k = read v k + weightOf weights i * statOf k i.
Proof.
  intros Hi Hs. unfold addStatistic. destruct (weight_ok i Hi) as (w & -> & W & OK). destruct (row_ok i Hi) as (-> & OR).
  destruct (law_add _ _ _ _ _ _ _ _ _ _ LAW _ w v OR OK Hs) as (v' & -> & Sv & Rv). exists v'. split; auto. split; auto.
  intros k Hk. rewrite Rv, W; auto.
Qed.

Lemma removeStatistic_ok i v : (i < length rows)%nat -> shape n v ->
  exists v', removeStatistic C rows weights v i = Some v' /\ shape n v' /\
    forall k, keys n k -> read v' k = read v k - weightOf weights i * statOf k i.
Proof.
  intros Hi Hs. unfold removeStatistic. destruct (weight_ok i Hi) as (w & -> & W & OK). destruct (row_ok i Hi) as (-> & OR).
  destruct (law_remove _ _ _ _ _ _ _ _ _ _ LAW _ w v OR OK Hs) as (v' & -> & Sv & Rv). exists v'. split; auto. split; auto.
  intros k Hk. rewrite Rv, W; auto.
Qed.

Let holds (m : nat) (o : K -> K) (c : contributions) (v : V) : Prop :=
  shape m v /\ forall k, keys m k -> read v k = sumOf c (statOf (o k)).

Lemma newWeighted_ok : exists v, newWeighted C rows weights n = Some v /\
  holds n (fun k => k) (map (single weights) (seq 0 (numWeights weights))) v.
Proof.
  unfold newWeighted.
  match goal with |- context [forN ?m ?z ?g ?y] =>
    destruct (forN_inv (fun i v => holds n (fun k => k) (map (single weights) (seq 0 i)) v) g m z y) as (v & E & H) end.
  - destruct (law_new _ _ _ _ _ _ _ _ _ _ LAW n) as (S1 & R1). split; auto.
  - intros i v Hi (Sv & Rv). destruct (addStatistic_ok i v) as (v' & E & S' & R'); auto; [lia|]. exists v'. split; auto. split; auto.
    intros k Hk. rewrite R', Rv by auto. rewrite seq_S, map_app, sumOf_app. simpl. lra.
  - exists v. simpl in H. auto.
Qed.

Lemma totalStep_ok op c v : total_op_in_range (length rows) op -> holds n (fun k => k) c v ->
  exists v', totalStep C rows weights op v = Some v' /\ holds n (fun k => k) (trackStep weights c op) v'.
Proof.
  intros Ho (Sv & Rv). destruct op as [|i|i]; simpl in *.
  - destruct (law_clear _ _ _ _ _ _ _ _ _ _ LAW n v Sv) as (S1 & R1). eexists; split; [reflexivity|]. split; auto.
  - destruct (addStatistic_ok i v) as (v' & E & S' & R'); auto. exists v'. split; auto. split; auto.
    intros k Hk. rewrite R', Rv, sumOf_app by auto. simpl. lra.
  - destruct (removeStatistic_ok i v) as (v' & E & S' & R'); auto. exists v'. split; auto. split; auto.
    intros k Hk. rewrite R', Rv, sumOf_app by auto. simpl. lra.
Qed.

Lemma totals_ok ops : Forall (total_op_in_range (length rows)) ops -> forall c v, holds n (fun k => k) c v ->
  exists v', forL ops (totalStep C rows weights) v = Some v' /\ holds n (fun k => k) (fold_left (trackStep weights) ops c) v'.
Proof.
  induction 1 as [|op ops Ho _ IH]; intros c v Hv; simpl; [eauto|].
  destruct (totalStep_ok op c v Ho Hv) as (v1 & -> & H1). apply IH. auto.
Qed.

Lemma newSubset_ok c total excluded o : holds n (fun k => k) c total -> Forall (fun i => (i < length rows)%nat) excluded ->
  exists s, newSubset C rows weights total excluded o = Some s /\
    holds n (fun k => k) (c ++ negated (map (single weights) excluded)) (subsetTotal s) /\
    holds (numOutputs o) (sub o) [] (subsetSum s) /\ subsetAccumulated s = None /\ shape (numOutputs o) (subsetTmp s).
Proof.
  intros Hv He. unfold newSubset.
  assert (X : exists v, forL excluded (fun i total => removeStatistic C rows weights total i) total = Some v /\
    holds n (fun k => k) (c ++ negated (map (single weights) excluded)) v).
  { revert c total Hv. induction He as [|i excluded Hi _ IH]; intros c total Hv; simpl.
    - exists total. rewrite app_nil_r. auto.
    - destruct Hv as (Sv & Rv). destruct (removeStatistic_ok i total) as (v1 & -> & S1 & R1); auto.
      destruct (IH (c ++ negated [single weights i]) v1) as (v2 & E2 & S2 & R2).
      { split; auto. intros k Hk. rewrite R1, Rv, sumOf_app by auto. simpl. lra. }
      exists v2. split; auto. split; auto. intros k Hk. rewrite R2 by auto. rewrite <- app_assoc. simpl. auto. }
  destruct X as (v & -> & Hv'). eexists; split; [reflexivity|]. simpl.
  destruct (law_new _ _ _ _ _ _ _ _ _ _ LAW (numOutputs o)) as (S1 & R1).
  split; [auto|]. split; [split; auto|]. auto.
Qed.

Definition subset_holds (o : outputs) (c : contributions) (a : contributions * contributions) (reset : bool) (s : subset V) : Prop :=
  holds n (fun k => k) c (subsetTotal s) /\ holds (numOutputs o) (sub o) (fst a) (subsetSum s) /\
  shape (numOutputs o) (subsetTmp s) /\
  (if reset then exists v, subsetAccumulated s = Some v /\ holds (numOutputs o) (sub o) (snd a) v
   else subsetAccumulated s = None /\ snd a = []).

Lemma subsetStep_ok o op c a reset s : okOutputs o -> subset_op_in_range (length rows) op -> subset_holds o c a reset s ->
  exists s', subsetStep C rows weights o op s = Some s' /\
    subset_holds o c (addedStep weights a op) (match op with ResetSubset => true | _ => reset end) s'.
Proof.
  intros Oo Ho ((Ts & Tr) & (Ss & Sr) & Tmp & Acc). destruct op as [i|]; simpl in *.
  - destruct (weight_ok i Ho) as (w & -> & W & OK). destruct (row_ok i Ho) as (-> & OR).
    destruct (law_addToSubset _ _ _ _ _ _ _ _ _ _ LAW _ o w _ OR OK Oo Ss) as (v' & -> & Sv & Rv).
    eexists; split; [reflexivity|]. split; [split; auto|]. split; [split; auto|split; auto].
    simpl. intros k Hk. rewrite Rv, Sr, sumOf_app, W by auto. simpl. unfold statOf. lra.
  - assert (X : exists v, match subsetAccumulated s with
        | None => Some (subsetSum s) | Some accumulated => vectorAddVector C (subsetSum s) accumulated end = Some v /\
        holds (numOutputs o) (sub o) (snd a ++ fst a) v).
    { destruct reset.
      - destruct Acc as (v & -> & (Av & Ar)).
        destruct (law_addVector _ _ _ _ _ _ _ _ _ _ LAW _ _ v Ss Av) as (v' & -> & Sv & Rv). exists v'. split; auto. split; auto.
        intros k Hk. rewrite Rv, Ar, Sr, sumOf_app by auto. auto.
      - destruct Acc as (-> & ->). exists (subsetSum s). split; auto. split; auto. }
    destruct X as (v & -> & Hv). eexists; split; [reflexivity|].
    destruct (law_clear _ _ _ _ _ _ _ _ _ _ LAW _ _ Ss) as (S1 & R1).
    split; [split; auto|]. split; [split; auto|]. split; auto. simpl. eauto.
Qed.

Lemma subsetSteps_ok o ops : okOutputs o -> Forall (subset_op_in_range (length rows)) ops -> forall c a reset s,
  subset_holds o c a reset s -> exists s', forL ops (subsetStep C rows weights o) s = Some s' /\
    exists reset', subset_holds o c (fold_left (addedStep weights) ops a) reset' s' /\
      (reset = true \/ In ResetSubset ops -> reset' = true).
Proof.
  intros Oo. induction 1 as [|op ops Ho _ IH]; intros c a reset s Hs; simpl.
  - exists s. split; auto. exists reset. split; auto. intros [|[]]; auto.
  - destruct (subsetStep_ok o op c a reset s Oo Ho Hs) as (s1 & -> & H1).
    destruct (IH _ _ _ _ H1) as (s2 & E2 & reset' & H2 & I2). exists s2. split; auto. exists reset'. split; auto.
    intros Hr. apply I2. destruct Hr as [->|[->|Hr]]; auto; destruct op; auto.
Qed.

Lemma aggregation_ok ops excluded o sops :
  Forall (total_op_in_range (length rows)) ops -> Forall (fun i => (i < length rows)%nat) excluded -> okOutputs o ->
  Forall (subset_op_in_range (length rows)) sops ->
  exists total0 total s0 s, newWeighted C rows weights n = Some total0 /\
    forL ops (totalStep C rows weights) total0 = Some total /\
    newSubset C rows weights total excluded o = Some s0 /\
    forL sops (subsetStep C rows weights o) s0 = Some s /\
    forall k, (accumulates k -> In ResetSubset sops) ->
      exists v, scoredVector C o s k = Some v /\ shape (numOutputs o) v /\
        forall q, keys (numOutputs o) q -> read v q = sumOf (scoredContributions weights ops excluded sops k) (statOf (sub o q)).
Proof.
  intros Ho He Oo Hs. destruct newWeighted_ok as (t0 & E0 & H0). exists t0.
  destruct (totals_ok ops Ho _ _ H0) as (t & E1 & H1). exists t.
  destruct (newSubset_ok _ t excluded o H1 He) as (s0 & E2 & H2 & H3 & H4 & H5). exists s0.
  destruct (subsetSteps_ok o sops Oo Hs (coverable weights ops excluded) ([], []) false s0) as (s & E3 & reset & H6 & R6).
  { split; [exact H2|]. split; [exact H3|]. split; auto. }
  exists s. split; auto. split; auto. split; auto. split; auto.
  destruct H6 as ((Ts & Tr) & (Ss & Sr) & Tmp & Acc). fold (added weights sops) in *.
  intros k Hk.
  assert (Diff : forall a v2, holds (numOutputs o) (sub o) a v2 -> exists v, vectorDifference C (subsetTotal s) o v2 (subsetTmp s) = Some v /\
     shape (numOutputs o) v /\ forall q, keys (numOutputs o) q -> read v q =
       sumOf (coverable weights ops excluded ++ negated a) (statOf (sub o q))).
  { intros a v2 (S2 & R2). destruct (law_difference _ _ _ _ _ _ _ _ _ _ LAW o _ v2 _ Oo Ts S2 Tmp) as (v & E & Sv & Rv).
    exists v. split; auto. split; auto. intros q Hq.
    assert (Hn : keys n (sub o q)) by (apply (law_sub _ _ _ _ _ _ _ _ _ _ LAW); auto).
    rewrite Rv, Tr, R2, sumOf_app, sumOf_negated by auto. lra. }
  destruct k; simpl in *.
  - eexists; split; [reflexivity|]. split; auto.
  - rewrite R6 in Acc by auto. destruct Acc as (v & -> & (Av & Ar)). eexists; split; [reflexivity|]. split; auto.
  - apply Diff. split; auto.
  - rewrite R6 in Acc by auto. destruct Acc as (v & -> & Hv). apply Diff. auto.
Qed.
End Aggregation.

(** ** Dense decomposable statistics *)

Definition key : Type := bool * nat.
Definition part (b : bool) (x : R * R) : R := if b then fst x else snd x.
Definition decKeys (m : nat) (k : key) : Prop := (snd k < m)%nat.
Definition decSub (o : outputs) (k : key) : key := (fst k, nth (snd k) (outputsOf o) 0%nat).
Definition denseRead (v : list (R * R)) (k : key) : R := part (fst k) (nth (snd k) v (0, 0)).

Lemma part_plus b x y : part b (plus2 x y) = part b x + part b y.
Proof. destruct b; auto. Qed.
Lemma part_minus b x y : part b (minus2 x y) = part b x - part b y.
Proof. destruct b; auto. Qed.
Lemma part_weighted b w x : part b (weighted2 w x) = weight1 w * part b x.
Proof. destruct w as [w|], b; simpl; lra. Qed.
Lemma part_zero b : part b (0, 0) = 0.
Proof. destruct b; auto. Qed.
Lemma nth_repeat_same {A} (x : A) n i : nth i (repeat x n) x = x.
Proof. apply nth_repeat. Qed.
Lemma nth_map_const {A B} (x : B) (l : list A) i : nth i (map (fun _ => x) l) x = x.
Proof. revert i. induction l; destruct i; simpl; auto. Qed.

Lemma outputsOf_length o : length (outputsOf o) = numOutputs o.
Proof. destruct o; simpl; auto. apply seq_length. Qed.
Lemma outputsOf_lt n o i : valid_outputs n o -> (i < numOutputs o)%nat -> (nth i (outputsOf o) 0 < n)%nat.
Proof.
  destruct o as [m|l]; simpl.
  - intros -> Hi. rewrite seq_nth; lia.
  - intros H Hi. rewrite Forall_forall in H. apply H, nth_In. auto.
Qed.
Lemma outputsOf_all m i : (i < m)%nat -> nth i (outputsOf (AllOutputs m)) 0%nat = i.
Proof. intros. simpl. rewrite seq_nth; lia. Qed.

Lemma dense_lawful n : lawful denseClass n (fun row => length row = n) (fun _ => True) (valid_outputs n)
  (fun m v => length v = m) decKeys decSub denseRead denseRead.
Proof.
  constructor; simpl.
  - intros m. split; [apply repeat_length|]. intros [b i] _. unfold denseRead, denseNew. simpl.
    rewrite nth_repeat. apply part_zero.
  - intros m v <-. split; [unfold denseClear; apply map_length|]. intros [b i] _. unfold denseRead, denseClear. simpl.
    rewrite nth_map_const. apply part_zero.
  - intros row w v Hr _ Hv. unfold denseAdd.
    destruct (combineViews_spec (0, 0) (0, 0) (fun x y => plus2 x (weighted2 w y)) v row (length v)) as (v' & E & L & N); auto; [lia|].
    exists v'. split; auto. split; [lia|]. intros [b i] Hk. unfold decKeys, denseRead in *. simpl in *.
    rewrite N by lia. rewrite part_plus, part_weighted. auto.
  - intros row w v Hr _ Hv. unfold denseRemove.
    destruct (combineViews_spec (0, 0) (0, 0) (fun x y => minus2 x (weighted2 w y)) v row (length v)) as (v' & E & L & N); auto; [lia|].
    exists v'. split; auto. split; [lia|]. intros [b i] Hk. unfold decKeys, denseRead in *. simpl in *.
    rewrite N by lia. rewrite part_minus, part_weighted. auto.
  - intros row o w v Hr _ Ho Hv. unfold denseAddToSubset. destruct o as [m|l].
    + simpl in *. subst m.
      destruct (combineViews_spec (0, 0) (0, 0) (fun x y => plus2 x (weighted2 w y)) v row (length v)) as (v' & E & L & N); auto; [lia|].
      exists v'. split; auto. split; [lia|]. intros [b i] Hk. unfold decKeys, denseRead in *. simpl in *.
      rewrite N by lia. rewrite part_plus, part_weighted, seq_nth by lia. auto.
    + destruct (combineViewsFrom_spec (0, 0) (0, 0) (fun x y => plus2 x (weighted2 w y)) v 0 row 0 l (length v)) as (v' & E & L & N).
      * lia.
      * simpl in Hv. lia.
      * intros i Hi. simpl. pose proof (outputsOf_lt n (SomeOutputs l) i Ho). simpl in *. lia.
      * exists v'. split; auto. split; [lia|]. intros [b i] Hk. unfold decKeys, denseRead in *. simpl in *.
        rewrite N. destruct (Nat.ltb_spec i (length v)); [|lia]. rewrite Nat.sub_0_r. simpl.
        rewrite part_plus, part_weighted. auto.
  - intros m v1 v H1 Hv. unfold denseAddVector.
    destruct (combineViews_spec (0, 0) (0, 0) plus2 v v1 (length v)) as (v' & E & L & N); auto; [lia|].
    exists v'. split; auto. split; [lia|]. intros [b i] Hk. unfold decKeys, denseRead in *. simpl in *.
    rewrite N by lia. rewrite part_plus. auto.
  - intros o v1 v2 v Ho H1 H2 Hv. unfold denseDifference. destruct o as [m|l].
    + simpl in *. subst m.
      destruct (setViewToDifference_spec (0, 0) minus2 v v1 v2 (length v)) as (v' & E & L & N); auto; try lia.
      exists v'. split; auto. split; [lia|]. intros [b i] Hk. unfold decKeys, denseRead in *. simpl in *.
      rewrite N by lia. rewrite part_minus, seq_nth by lia. auto.
    + destruct (setViewToDifferenceFrom_spec (0, 0) minus2 v 0 v1 0 v2 0 l (length v)) as (v' & E & L & N).
      * lia.
      * simpl in Hv. lia.
      * intros i Hi. simpl. pose proof (outputsOf_lt n (SomeOutputs l) i Ho). simpl in *. lia.
      * simpl in *. lia.
      * exists v'. split; auto. split; [lia|]. intros [b i] Hk. unfold decKeys, denseRead in *. simpl in *.
        rewrite N. destruct (Nat.ltb_spec i (length v)); [|lia]. rewrite Nat.sub_0_r. simpl.
        rewrite part_minus. auto.
  - intros o [b i] Ho Hk. unfold decKeys, decSub in *. simpl in *. apply outputsOf_lt; auto.
Qed.

Lemma outputs_nth o i l : nth_error (outputsOf o) i = Some l -> (i < numOutputs o)%nat /\ nth i (outputsOf o) 0%nat = l.
Proof.
  intros H. split; [|apply nth_error_nth; auto]. rewrite <- outputsOf_length. apply nth_error_Some. congruence.
Qed.

Lemma dense_aggregation :
  forall rows weights numCols, Forall (fun row => length row = numCols) rows -> numWeights weights = length rows ->
    forall ops excluded o sops, Forall (total_op_in_range (length rows)) ops ->
      Forall (fun i => (i < length rows)%nat) excluded -> valid_outputs numCols o ->
      Forall (subset_op_in_range (length rows)) sops ->
      exists total0 total s0 s, newWeighted denseClass rows weights numCols = Some total0 /\
        forL ops (totalStep denseClass rows weights) total0 = Some total /\
        newSubset denseClass rows weights total excluded o = Some s0 /\
        forL sops (subsetStep denseClass rows weights o) s0 = Some s /\
        forall k, (accumulates k -> In ResetSubset sops) ->
          exists v, scoredVector denseClass o s k = Some v /\
            exact_dense rows (outputsOf o) (scoredContributions weights ops excluded sops k) v.
Proof.
  intros rows weights n HR HL ops excluded o sops Ho He Oo Hs.
  destruct (aggregation_ok denseClass n _ _ _ _ _ _ _ _ (dense_lawful n) rows [] HR weights (fun _ _ _ _ => I) HL
    ops excluded o sops Ho He Oo Hs) as (t0 & t & s0 & s & E1 & E2 & E3 & E4 & H).
  exists t0, t, s0, s. split; auto. split; auto. split; auto. split; auto. intros k Hk.
  destruct (H k Hk) as (v & Ev & Lv & Rv). exists v. split; auto. split; [rewrite outputsOf_length; auto|].
  intros i l Hi. destruct (outputs_nth o i l Hi) as (Li & Nl).
  rewrite (nth_error_nth' v (0, 0)) by lia. f_equal.
  pose proof (Rv (true, i) Li) as G. pose proof (Rv (false, i) Li) as F. unfold denseRead, decSub in G, F. simpl in G, F.
  rewrite Nl in G, F. rewrite (surjective_pairing (nth i v (0, 0))), G, F. reflexivity.
Qed.

(** ** Rows of sparse matrices *)

Lemma inv_nodup {V} n m (s : sset V) : ss_inv n m s -> NoDup (map fst (ss_values s)).
Proof.
  intros (I1 & I2 & _). apply NoDup_nth_error. intros i j Hi E.
  rewrite map_length in Hi. rewrite !nth_error_map in E.
  destruct (nth_error (ss_values s) i) as [[a v]|] eqn:Ei; [|apply nth_error_None in Ei; lia].
  destruct (nth_error (ss_values s) j) as [[b u]|] eqn:Ej; [|discriminate]. simpl in E. injection E as <-.
  destruct (I2 i a v Ei) as (_ & F & _). destruct (I2 j a u Ej) as (_ & G & _). congruence.
Qed.

Lemma inv_range {V} n m (s : sset V) : ss_inv n m s -> Forall (fun e => (fst e < n)%nat) (ss_values s).
Proof.
  intros (I1 & I2 & _). apply Forall_forall. intros [i v] H. destruct (In_nth_error _ _ H) as (j & E).
  apply (I2 j i v E).
Qed.

Lemma find_unique {V} (l : list (nat * V)) i v : NoDup (map fst l) -> In (i, v) l ->
  find (fun e => fst e =? i) l = Some (i, v).
Proof.
  induction l as [|[j u] l IH]; simpl; intros ND H; [tauto|]. inversion ND; subst. destruct (Nat.eqb_spec j i).
  - subst j. destruct H as [H|H]; [congruence|]. exfalso. apply H2. apply in_map_iff. exists (i, v). auto.
  - destruct H as [H|H]; [congruence|]. auto.
Qed.

Lemma inv_stored {V} n m (s : sset V) : ss_inv n m s -> forall l, (l < n)%nat -> stored s l = m l.
Proof.
  intros I l Hl. pose proof (inv_nodup n m s I) as ND. destruct I as (I1 & I2 & I3 & I4 & I5). unfold stored.
  destruct (m l) as [v|] eqn:M.
  - destruct (I4 l v Hl M) as (j & _ & E). rewrite (find_unique _ l v ND); auto. apply nth_error_In with j. auto.
  - destruct (find _ _) as [[i v]|] eqn:F; auto. apply find_some in F. destruct F as (F & G). simpl in G.
    apply Nat.eqb_eq in G. subst i. destruct (In_nth_error _ _ F) as (j & E). destruct (I2 j l v E) as (_ & _ & X). congruence.
Qed.

Lemma inv_get {V} n m (s : sset V) : ss_inv n m s -> forall l, (l < n)%nat ->
  ss_get s l = Some (match m l with None => None | Some v => Some (l, v) end).
Proof.
  intros (I1 & I2 & I3 & I4 & I5) l Hl. unfold ss_get, aget. destruct (m l) as [v|] eqn:M.
  - destruct (I4 l v Hl M) as (j & -> & ->). auto.
  - rewrite I3; auto.
Qed.

Lemma valid_inv {V} n (s : sset V) : valid_row n s -> exists m, ss_inv n m s.
Proof.
  intros (ops & HF & E). destruct (ss_run_inv n ops (fun _ => None) (ss_empty V n) (ss_empty_inv V n) HF) as (s' & E' & I).
  rewrite E in E'. injection E' as <-. eauto.
Qed.

(** ** Sparse decomposable statistics *)

Lemma combineEntries_spec f entries : forall t n, length t = n -> NoDup (map fst entries) ->
  Forall (fun e => (fst e < n)%nat) entries ->
  exists t', combineEntries f t entries = Some t' /\ length t' = n /\
    forall j d, nth j t' d = match find (fun e => fst e =? j) entries with
                             | Some e => f (nth j t d) (snd e) | None => nth j t d end.
Proof.
  unfold combineEntries. induction entries as [|[i x] entries IH]; intros t n Ht ND HF.
  - exists t. simpl. auto.
  - inversion HF; subst. inversion ND; subst. simpl in *.
    rewrite (aget_nth t i (0, 0, 0)) by auto. rewrite aset_Some by auto.
    destruct (IH (upd t i (f (nth i t (0, 0, 0)) x)) (length t)) as (t' & E & L & N); auto; [apply upd_length|].
    exists t'. split; auto. split; auto. intros j d. rewrite N, nth_upd_eq.
    destruct (Nat.eqb_spec i j).
    + subst j. destruct (find _ entries) as [[a b]|] eqn:F.
      * exfalso. apply find_some in F. destruct F as (F & G). simpl in G. apply Nat.eqb_eq in G. subst a.
        apply H3. apply in_map_iff. exists (i, b). auto.
      * destruct (Nat.ltb_spec i (length t)); [|lia]. simpl. f_equal. apply nth_indep. auto.
    + simpl. auto.
Qed.

(** The part of a vector's element with a given index. *)
Definition sparseRead (v : sparseVector) (k : key) : R :=
  let t := nth (snd k) (fst v) (0, 0, 0) in
  if fst k then fst (fst t) else snd (fst t) + (snd v - snd t).
Definition sparseStat (row : sset (R * R)) (k : key) : R := part (fst k) (sparseStatistic row (snd k)).
Definition regular (w : R) : Prop := isEqualToZero w = true -> w = 0.

Lemma sparseAdd_spec n m row w v : ss_inv n m row -> length (fst v) = n -> (forall x, w = Some x -> regular x) ->
  exists v', sparseAdd row w v = Some v' /\ length (fst v') = n /\
    forall k, decKeys n k -> sparseRead v' k = sparseRead v k + weight1 w * sparseStat row k.
Proof.
  intros I Hv Hw. unfold sparseAdd. destruct (skipped w) eqn:Sk.
  - exists v. split; auto. split; auto. destruct w as [w|]; simpl in *; [|discriminate]. rewrite (Hw w eq_refl Sk). intros; lra.
  - destruct (combineEntries_spec (fun x y => plus3 x (weighted3 w y)) (ss_values row) (fst v) n Hv (inv_nodup _ _ _ I) (inv_range _ _ _ I))
      as (t & -> & L & N). eexists; split; [reflexivity|]. split; auto.
    intros [b i] _. unfold sparseRead, sparseStat, sparseStatistic, stored. simpl. rewrite N.
    destruct (find _ _) as [[a x]|]; simpl; destruct b, w as [w|]; simpl; lra.
Qed.

Lemma sparseRemove_spec n m row w v : ss_inv n m row -> length (fst v) = n -> (forall x, w = Some x -> regular x) ->
  exists v', sparseRemove row w v = Some v' /\ length (fst v') = n /\
    forall k, decKeys n k -> sparseRead v' k = sparseRead v k - weight1 w * sparseStat row k.
Proof.
  intros I Hv Hw. unfold sparseRemove. destruct (skipped w) eqn:Sk.
  - exists v. split; auto. split; auto. destruct w as [w|]; simpl in *; [|discriminate]. rewrite (Hw w eq_refl Sk). intros; lra.
  - destruct (combineEntries_spec (fun x y => minus3 x (weighted3 w y)) (ss_values row) (fst v) n Hv (inv_nodup _ _ _ I) (inv_range _ _ _ I))
      as (t & -> & L & N). eexists; split; [reflexivity|]. split; auto.
    intros [b i] _. unfold sparseRead, sparseStat, sparseStatistic, stored. simpl. rewrite N.
    destruct (find _ _) as [[a x]|]; simpl; destruct b, w as [w|]; simpl; lra.
Qed.

Lemma sparseAddToSubset_spec n m row l w v : ss_inv n m row -> Forall (fun i => (i < n)%nat) l -> length (fst v) = length l ->
  (forall x, w = Some x -> regular x) ->
  exists v', sparseAddToSubset row (SomeOutputs l) w v = Some v' /\ length (fst v') = length l /\
    forall k, decKeys (length l) k -> sparseRead v' k = sparseRead v k + weight1 w * sparseStat row (fst k, nth (snd k) l 0%nat).
Proof.
  intros I Hl Hv Hw. simpl. destruct (skipped w) eqn:Sk.
  - exists v. split; auto. split; auto. destruct w as [w|]; simpl in *; [|discriminate]. rewrite (Hw w eq_refl Sk). intros; lra.
  - match goal with |- context [forN ?p ?z ?g ?y] =>
      destruct (forN_pointwise ((0, 0, 0) : triple) g 0 p (fun i x => match m (nth i l 0%nat) with
        None => x | Some e => plus3 x (weighted3 w e) end) y) as (t & E & L & N) end; [lia| |].
    + intros i a Hi La. simpl Nat.add in *. rewrite (aget_nth l i 0%nat) by auto.
      assert (Hn : (nth i l 0 < n)%nat) by (rewrite Forall_forall in Hl; apply Hl, nth_In; auto).
      rewrite (inv_get n m row I _ Hn). destruct (m (nth i l 0%nat)).
      * rewrite (aget_nth a i (0, 0, 0)) by lia. apply aset_Some. lia.
      * rewrite upd_nth_same; auto. apply nth_error_nth'. lia.
    + rewrite E. eexists; split; [reflexivity|]. split; [simpl; lia|]. intros [b i] Hi. unfold decKeys in Hi. simpl in Hi.
      assert (Hn : (nth i l 0 < n)%nat) by (rewrite Forall_forall in Hl; apply Hl, nth_In; auto).
      unfold sparseRead, sparseStat, sparseStatistic. simpl. rewrite (inv_stored n m row I _ Hn), N.
      destruct (Nat.ltb_spec i (0 + length l)); [|simpl in *; lia]. rewrite Nat.sub_0_r. simpl.
      destruct (m (nth i l 0%nat)); simpl; destruct b, w as [w|]; simpl; lra.
Qed.

Lemma sparse_lawful n : lawful sparseClass n (valid_row n) regular (valid_outputs n)
  (fun m v => length (fst v) = m) decKeys decSub sparseRead sparseStat.
Proof.
  constructor; simpl.
  - intros m. split; [apply repeat_length|]. intros [b i] _. unfold sparseRead, sparseNew. simpl.
    rewrite nth_repeat. simpl. destruct b; lra.
  - intros m v <-. split; [unfold sparseClear; simpl; apply map_length|]. intros [b i] _. unfold sparseRead, sparseClear. simpl.
    rewrite nth_map_const. simpl. destruct b; lra.
  - intros row w v Hr Hw Hv. destruct (valid_inv n row Hr) as (m & I). apply (sparseAdd_spec n m); auto.
  - intros row w v Hr Hw Hv. destruct (valid_inv n row Hr) as (m & I). apply (sparseRemove_spec n m); auto.
  - intros row o w v Hr Hw Ho Hv. destruct (valid_inv n row Hr) as (m & I). destruct o as [p|l].
    + simpl in *. subst p. destruct (sparseAdd_spec n m row w v I Hv Hw) as (v' & E & L & N). exists v'. split; auto. split; auto.
      intros [b i] Hk. rewrite N by auto. unfold decSub. simpl. rewrite seq_nth by auto. auto.
    + apply (sparseAddToSubset_spec n m); auto.
  - intros m v1 v H1 Hv. unfold sparseAddVector.
    destruct (combineViews_spec ((0, 0, 0) : triple) ((0, 0, 0) : triple) plus3 (fst v) (fst v1) (length (fst v))) as (t & -> & L & N); auto; [lia|].
    eexists; split; [reflexivity|]. split; [simpl; lia|]. intros [b i] Hk. unfold decKeys, sparseRead in *. simpl in *.
    rewrite N by lia. simpl. destruct b; lra.
  - intros o v1 v2 v Ho H1 H2 Hv. unfold sparseDifference. destruct o as [m|l].
    + simpl in *. subst m.
      destruct (setViewToDifference_spec ((0, 0, 0) : triple) minus3 (fst v) (fst v1) (fst v2) (length (fst v))) as (t & -> & L & N); auto; try lia.
      eexists; split; [reflexivity|]. split; [simpl; lia|]. intros [b i] Hk. unfold decKeys, sparseRead in *. simpl in *.
      rewrite N by lia. rewrite seq_nth by lia. simpl. destruct b; lra.
    + destruct (setViewToDifferenceFrom_spec ((0, 0, 0) : triple) minus3 (fst v) 0 (fst v1) 0 (fst v2) 0 l (length (fst v))) as (t & -> & L & N).
      * lia.
      * simpl in Hv. lia.
      * intros i Hi. simpl. pose proof (outputsOf_lt n (SomeOutputs l) i Ho). simpl in *. lia.
      * simpl in *. lia.
      * eexists; split; [reflexivity|]. split; [simpl in *; lia|]. intros [b i] Hk. unfold decKeys, sparseRead in *. simpl in *.
        rewrite N. destruct (Nat.ltb_spec i (length (fst v))); [|lia]. rewrite Nat.sub_0_r. simpl. destruct b; lra.
  - intros o [b i] Ho Hk. unfold decKeys, decSub in *. simpl in *. apply outputsOf_lt; auto.
Qed.

Lemma sparse_aggregation :
  forall rows weights numCols, Forall (valid_row numCols) rows -> numWeights weights = length rows ->
    (forall l, weights = IndividualWeights l -> Forall (fun w => isEqualToZero w = true -> w = 0) l) ->
    forall ops excluded o sops, Forall (total_op_in_range (length rows)) ops ->
      Forall (fun i => (i < length rows)%nat) excluded -> valid_outputs numCols o ->
      Forall (subset_op_in_range (length rows)) sops ->
      exists total0 total s0 s, newWeighted sparseClass rows weights numCols = Some total0 /\
        forL ops (totalStep sparseClass rows weights) total0 = Some total /\
        newSubset sparseClass rows weights total excluded o = Some s0 /\
        forL sops (subsetStep sparseClass rows weights o) s0 = Some s /\
        forall k, (accumulates k -> In ResetSubset sops) ->
          exists v, scoredVector sparseClass o s k = Some v /\
            exact_sparse rows (outputsOf o) (scoredContributions weights ops excluded sops k) v.
Proof.
  intros rows weights n HR HL HW ops excluded o sops Ho He Oo Hs.
  assert (OKW : forall i l, weights = IndividualWeights l -> (i < length l)%nat -> regular (nth i l 0)).
  { intros i l E Hi. specialize (HW l E). rewrite Forall_forall in HW. intros Z. apply HW; auto. apply nth_In. auto. }
  destruct (aggregation_ok sparseClass n _ _ _ _ _ _ _ _ (sparse_lawful n) rows (ss_empty _ 0) HR weights OKW HL
    ops excluded o sops Ho He Oo Hs) as (t0 & t & s0 & s & E1 & E2 & E3 & E4 & H).
  exists t0, t, s0, s. split; auto. split; auto. split; auto. split; auto. intros k Hk.
  destruct (H k Hk) as (v & Ev & Lv & Rv). exists v. split; auto. split; [rewrite outputsOf_length; auto|].
  intros i l Hi. destruct (outputs_nth o i l Hi) as (Li & Nl).
  pose proof (Rv (true, i) Li) as G. pose proof (Rv (false, i) Li) as F. unfold sparseRead, decSub in G, F. simpl in G, F.
  rewrite Nl in G, F. unfold sparseElement. rewrite (aget_nth (fst v) i (0, 0, 0)) by lia.
  destruct (nth i (fst v) (0, 0, 0)) as [[g h] w0]. simpl in G, F. rewrite G, F. reflexivity.
Qed.

(** ** Non-decomposable statistics *)

Definition ndKey : Type := nat + nat.
Definition ndKeys (m : nat) (k : ndKey) : Prop :=
  match k with inl i => (i < m)%nat | inr p => (p < triangularNumber m)%nat end.
(** The row and column of the p-th element of a triangle. *)
Definition rowOf (p : nat) : nat := (fst (Cantor.of_nat p) + snd (Cantor.of_nat p))%nat.
Definition colOf (p : nat) : nat := snd (Cantor.of_nat p).
Definition ndSub (o : outputs) (k : ndKey) : ndKey :=
  match k with
  | inl i => inl (nth i (outputsOf o) 0%nat)
  | inr p => inr (triangularNumber (nth (rowOf p) (outputsOf o) 0) + nth (colOf p) (outputsOf o) 0)%nat
  end.
Definition ndRead (v : nonDecomposableVector) (k : ndKey) : R :=
  match k with inl i => nth i (fst v) 0 | inr p => nth p (snd v) 0 end.
Definition ndShape (m : nat) (v : nonDecomposableVector) : Prop := length (fst v) = m /\ length (snd v) = triangularNumber m.

Lemma tri_S i : triangularNumber (S i) = (triangularNumber i + S i)%nat.
Proof.
  unfold triangularNumber. replace (S i * (S i + 1))%nat with (i * (i + 1) + (i + 1) * 2)%nat by lia.
  rewrite Nat.div_add by lia. lia.
Qed.
Lemma tri_mono i j : (i <= j)%nat -> (triangularNumber i <= triangularNumber j)%nat.
Proof. induction 1; auto. rewrite tri_S. lia. Qed.
Lemma tri_lt i j m : (j <= i)%nat -> (i < m)%nat -> (triangularNumber i + j < triangularNumber m)%nat.
Proof. intros H1 H2. pose proof (tri_mono (S i) m H2) as H. rewrite tri_S in H. lia. Qed.

Lemma tri_any i j m : (j < m)%nat -> (i < m)%nat -> (triangularNumber i + j < triangularNumber m)%nat.
Proof.
  intros H1 H2. destruct (le_lt_dec j i) as [H|H]; [apply tri_lt; auto|].
  pose proof (tri_mono (S (S i)) m ltac:(lia)) as T. destruct m as [|m]; [lia|]. rewrite tri_S.
  pose proof (tri_mono i m ltac:(lia)). lia.
Qed.
Lemma tri_to_nat i j : (j <= i)%nat -> Cantor.to_nat ((i - j)%nat, j) = (triangularNumber i + j)%nat.
Proof.
  intros H. pose proof (Cantor.to_nat_spec (i - j) j) as E. replace (j + (i - j))%nat with i in E by lia.
  assert (T : (triangularNumber i * 2 = i * S i)%nat).
  { clear. induction i; [reflexivity|]. rewrite tri_S. lia. }
  lia.
Qed.
Lemma rowOf_tri i j : (j <= i)%nat -> rowOf (triangularNumber i + j) = i /\ colOf (triangularNumber i + j) = j.
Proof. intros H. unfold rowOf, colOf. rewrite <- tri_to_nat, Cantor.cancel_of_to by auto. simpl. lia. Qed.
Lemma tri_rowOf p : (colOf p <= rowOf p)%nat /\ p = (triangularNumber (rowOf p) + colOf p)%nat.
Proof.
  assert (H : (colOf p <= rowOf p)%nat) by (unfold colOf, rowOf; lia). split; auto.
  rewrite <- tri_to_nat by auto. unfold rowOf, colOf in *. rewrite Nat.add_sub, <- surjective_pairing, Cantor.cancel_to_of. auto.
Qed.
Lemma rowOf_lt p m : (p < triangularNumber m)%nat -> (rowOf p < m)%nat.
Proof.
  intros H. destruct (tri_rowOf p) as (_ & E). destruct (le_lt_dec m (rowOf p)) as [L|L]; auto.
  pose proof (tri_mono m (rowOf p) L). lia.
Qed.

(** The loop over the rows of the triangle. *)
Lemma triangle_loop (body : nat -> list R -> option (list R)) (h : nat -> nat -> R -> R) m hs :
  length hs = triangularNumber m ->
  (forall i hs, (i < m)%nat -> length hs = triangularNumber m -> exists hs', body i hs = Some hs' /\ length hs' = length hs /\
    forall j, nth j hs' 0 = if (triangularNumber i <=? j) && (j <? triangularNumber i + (i + 1))
                            then h i (j - triangularNumber i)%nat (nth j hs 0) else nth j hs 0) ->
  exists hs', forN m 0 body hs = Some hs' /\ length hs' = length hs /\
    forall i j, (j <= i)%nat -> (i < m)%nat -> nth (triangularNumber i + j) hs' 0 = h i j (nth (triangularNumber i + j) hs 0).
Proof.
  intros Hl Hb.
  destruct (forN_inv (fun r hs' => length hs' = length hs /\
    (forall i j, (j <= i)%nat -> (i < r)%nat -> nth (triangularNumber i + j) hs' 0 = h i j (nth (triangularNumber i + j) hs 0)) /\
    forall j, (triangularNumber r <= j)%nat -> nth j hs' 0 = nth j hs 0) body m 0 hs) as (hs' & E & L & N & _).
  - split; auto. split; auto. intros; lia.
  - intros r hs1 Hr (L & N & U). destruct (Hb r hs1) as (hs2 & E2 & L2 & N2); [lia|lia|]. exists hs2. split; auto. split; [lia|].
    split.
    + intros i j Hj Hi. rewrite N2. destruct (Nat.eq_dec i r).
      * subst i. destruct (Nat.leb_spec (triangularNumber r) (triangularNumber r + j)); [|lia].
        destruct (Nat.ltb_spec (triangularNumber r + j) (triangularNumber r + (r + 1))); [|lia]. simpl.
        replace (triangularNumber r + j - triangularNumber r)%nat with j by lia. rewrite U by lia. auto.
      * pose proof (tri_lt i j r Hj) as T. destruct (Nat.leb_spec (triangularNumber r) (triangularNumber i + j)); [lia|].
        simpl. apply N; lia.
    + intros j Hj. rewrite tri_S in Hj. rewrite N2. destruct (Nat.ltb_spec j (triangularNumber r + (r + 1))); [lia|].
      rewrite andb_false_r. apply U. lia.
  - exists hs'. simpl in *. auto.
Qed.

Lemma ndCombine_spec f m row v : ndShape m row -> ndShape m v ->
  exists v', ndCombine f row v = Some v' /\ ndShape m v' /\ forall k, ndKeys m k -> ndRead v' k = f (ndRead v k) (ndRead row k).
Proof.
  intros (R1 & R2) (V1 & V2). unfold ndCombine.
  destruct (combineViews_spec 0 0 f (fst v) (fst row) (length (fst v))) as (g & -> & L & N); auto; [lia|].
  destruct (combineViews_spec 0 0 f (snd v) (snd row) (length (snd v))) as (h & -> & L' & N'); auto; [lia|].
  eexists; split; [reflexivity|]. split; [split; simpl; lia|]. intros [i|p]; simpl; intros Hk.
  - apply N. lia.
  - apply N'. lia.
Qed.

Lemma weighted1_spec w y : weighted1 w y = weight1 w * y.
Proof. destruct w; simpl; lra. Qed.

Lemma sorted_nth l : StronglySorted le l -> forall i j, (j <= i)%nat -> (i < length l)%nat -> (nth j l 0 <= nth i l 0)%nat.
Proof.
  induction 1 as [|a l _ IH Ha]; simpl; intros i j Hj Hi; [lia|]. destruct j, i; simpl; try lia.
  - rewrite Forall_forall in Ha. apply Ha, nth_In. lia.
  - apply IH; lia.
Qed.

Lemma nd_lawful n : lawful ndClass n (ndShape n) (fun _ => True) (valid_outputs n) ndShape ndKeys ndSub ndRead ndRead.
Proof.
  constructor; simpl.
  - intros m. split; [split; apply repeat_length|]. intros [i|p] _; simpl; apply nth_repeat.
  - intros m v (<- & E). split; [split; simpl; rewrite map_length; auto|]. intros [i|p] _; simpl; apply nth_map_const.
  - intros row w v Hr _ Hv. unfold ndAdd.
    destruct (ndCombine_spec (fun x y => x + weighted1 w y) n row v Hr Hv) as (v' & E & Sv & N). exists v'. split; auto. split; auto.
    intros k Hk. rewrite N, weighted1_spec; auto.
  - intros row w v Hr _ Hv. unfold ndRemove.
    destruct (ndCombine_spec (fun x y => x - weighted1 w y) n row v Hr Hv) as (v' & E & Sv & N). exists v'. split; auto. split; auto.
    intros k Hk. rewrite N, weighted1_spec; auto.
  - intros row o w v Hr _ Ho Hv. destruct o as [m|l].
    + simpl in *. subst m. unfold ndAdd.
      destruct (ndCombine_spec (fun x y => x + weighted1 w y) n row v Hr Hv) as (v' & E & Sv & N). exists v'. split; auto. split; auto.
      intros [i|p] Hk; rewrite N, weighted1_spec by auto; simpl in *; [rewrite seq_nth by lia; auto|].
      destruct (tri_rowOf p) as (C1 & C2). pose proof (rowOf_lt p n Hk). rewrite !seq_nth, !Nat.add_0_l, <- C2 by lia. auto.
    + destruct Hr as (R1 & R2), Hv as (V1 & V2). simpl in Ho, V1, V2. unfold ndAddToSubset.
      assert (Hn : forall i, (i < length l)%nat -> (nth i l 0 < n)%nat)
        by (intros i Hi; rewrite Forall_forall in Ho; apply Ho, nth_In; auto).
      destruct (combineViewsFrom_spec 0 0 (fun x y => x + weighted1 w y) (fst v) 0 (fst row) 0 l (length (fst v))) as (g & Eg & Lg & Ng).
      { lia. } { lia. } { intros i Hi. simpl. rewrite R1. apply Hn. lia. }
      cbv zeta. rewrite Eg.
      match goal with |- context [forN ?p ?z ?b ?y] =>
        destruct (triangle_loop b (fun i j x => x + weighted1 w (nth (triangularNumber (nth i l 0%nat) + nth j l 0%nat) (snd row) 0)) p y)
          as (h & Eh & Lh & Nh) end.
      { rewrite V1. exact V2. }
      { intros i hs Hi Lhs. rewrite (aget_nth l i 0%nat) by lia.
        destruct (combineViewsFrom_spec 0 0 (fun x y => x + weighted1 w y) hs (triangularNumber i) (snd row)
          (triangularNumber (nth i l 0%nat)) l (i + 1)) as (hs' & E & L & N).
        - rewrite Lhs. pose proof (tri_mono (S i) (length (fst v)) Hi) as T. rewrite tri_S in T. lia.
        - lia.
        - intros j Hj. rewrite R2. apply tri_any; apply Hn; lia.
        - exists hs'. split; auto. }
      rewrite Eh. eexists; split; [reflexivity|]. split; [split; simpl; lia|].
      intros [i|p] Hk; simpl in *.
      * rewrite Ng. destruct (Nat.ltb_spec i (length (fst v))); [|lia]. simpl. rewrite Nat.sub_0_r, weighted1_spec. auto.
      * destruct (tri_rowOf p) as (C1 & C2). pose proof (rowOf_lt p _ Hk). rewrite C2 at 1 2. rewrite Nh by lia.
        rewrite weighted1_spec. auto.
  - intros m v1 v H1 Hv. unfold ndAddVector. destruct (ndCombine_spec Rplus m v1 v H1 Hv) as (v' & E & Sv & N). eauto.
  - intros o v1 v2 v Ho (A1 & A2) (B1 & B2) (V1 & V2). destruct o as [m|l].
    + simpl in *. subst m.
      destruct (setViewToDifference_spec 0 Rminus (fst v) (fst v1) (fst v2) (length (fst v))) as (g & -> & Lg & Ng); auto; try lia.
      destruct (setViewToDifference_spec 0 Rminus (snd v) (snd v1) (snd v2) (length (snd v))) as (h & -> & Lh & Nh); auto; try lia.
      eexists; split; [reflexivity|]. split; [split; simpl; lia|]. intros [i|p] Hk; simpl in *.
      * rewrite Ng, seq_nth by lia. auto.
      * destruct (tri_rowOf p) as (C1 & C2). pose proof (rowOf_lt p _ Hk). rewrite Nh by lia.
        rewrite !seq_nth, !Nat.add_0_l, <- C2 by lia. auto.
    + simpl in Ho, B1, B2, V1, V2. unfold ndDifference.
      assert (Hn : forall i, (i < length l)%nat -> (nth i l 0 < n)%nat)
        by (intros i Hi; rewrite Forall_forall in Ho; apply Ho, nth_In; auto).
      destruct (setViewToDifferenceFrom_spec 0 Rminus (fst v) 0 (fst v1) 0 (fst v2) 0 l (length (fst v))) as (g & Eg & Lg & Ng).
      { lia. } { lia. } { intros i Hi. simpl. rewrite A1. apply Hn. lia. } { lia. }
      rewrite Eg.
      match goal with |- context [forN ?p ?z ?b ?y] =>
        destruct (triangle_loop b (fun i j x => nth (triangularNumber (nth i l 0%nat) + nth j l 0%nat) (snd v1) 0
          - nth (triangularNumber i + j) (snd v2) 0) p y) as (h & Eh & Lh & Nh) end.
      { rewrite V1. exact V2. }
      { intros i hs Hi Lhs. rewrite (aget_nth l i 0%nat) by lia. cbv zeta.
        assert (Ti : (triangularNumber i + (i + 1) <= triangularNumber (length (fst v)))%nat)
          by (pose proof (tri_mono (S i) (length (fst v)) Hi) as T; rewrite tri_S in T; lia).
        destruct (setViewToDifferenceFrom_spec 0 Rminus hs (triangularNumber i) (snd v1)
          (triangularNumber (nth i l 0%nat)) (snd v2) (triangularNumber i) l (i + 1)) as (hs' & E & L & N).
        - lia.
        - lia.
        - intros j Hj. rewrite A2. apply tri_any; apply Hn; lia.
        - rewrite B2, <- V1. auto.
        - exists hs'. split; auto. }
      rewrite Eh. eexists; split; [reflexivity|]. split; [split; simpl; lia|].
      intros [i|p] Hk; simpl in *.
      * rewrite Ng. destruct (Nat.ltb_spec i (length (fst v))); [|lia]. simpl. rewrite Nat.sub_0_r. auto.
      * destruct (tri_rowOf p) as (C1 & C2). pose proof (rowOf_lt p _ Hk). rewrite C2 at 1 4. rewrite Nh by lia. rewrite <- C2. auto.
  - intros o [i|p] Ho Hk; simpl in *.
    + apply outputsOf_lt; auto.
    + destruct (tri_rowOf p) as (C1 & C2). pose proof (rowOf_lt p _ Hk). apply tri_any; apply outputsOf_lt; auto; lia.
Qed.

(** The sums of the elements that are accessed, regardless of the order of the outputs. *)
Lemma nd_aggregation_any :
  forall rows weights numCols,
    Forall (fun row => length (fst row) = numCols /\ length (snd row) = (numCols * (numCols + 1) / 2)%nat) rows ->
    numWeights weights = length rows ->
    forall ops excluded o sops, Forall (total_op_in_range (length rows)) ops ->
      Forall (fun i => (i < length rows)%nat) excluded -> valid_outputs numCols o ->
      Forall (subset_op_in_range (length rows)) sops ->
      exists total0 total s0 s, newWeighted ndClass rows weights numCols = Some total0 /\
        forL ops (totalStep ndClass rows weights) total0 = Some total /\
        newSubset ndClass rows weights total excluded o = Some s0 /\
        forL sops (subsetStep ndClass rows weights o) s0 = Some s /\
        forall k, (accumulates k -> In ResetSubset sops) ->
          exists v, scoredVector ndClass o s k = Some v /\ length (fst v) = length (outputsOf o) /\
            (forall i l, nth_error (outputsOf o) i = Some l ->
              nth_error (fst v) i = Some (sumOf (scoredContributions weights ops excluded sops k) (ndGradient rows l))) /\
            (forall i j l m, (j <= i)%nat -> nth_error (outputsOf o) i = Some l -> nth_error (outputsOf o) j = Some m ->
              nth_error (snd v) (i * (i + 1) / 2 + j) =
                Some (sumOf (scoredContributions weights ops excluded sops k) (fun e => nth (triangularNumber l + m) (snd (nth e rows ([], []))) 0))).
Proof.
  intros rows weights n HR HL ops excluded o sops Ho He Oo Hs.
  destruct (aggregation_ok ndClass n _ _ _ _ _ _ _ _ (nd_lawful n) rows ([], []) HR weights (fun _ _ _ _ => I) HL
    ops excluded o sops Ho He Oo Hs) as (t0 & t & s0 & s & E1 & E2 & E3 & E4 & H).
  exists t0, t, s0, s. split; auto. split; auto. split; auto. split; auto. intros k Hk.
  destruct (H k Hk) as (v & Ev & (Lv & Lh) & Rv). exists v. split; auto. split; [rewrite outputsOf_length; auto|]. split.
  - intros i l Hi. destruct (outputs_nth o i l Hi) as (Li & Nl).
    rewrite (nth_error_nth' _ 0) by lia. f_equal. pose proof (Rv (inl i) Li) as G. simpl in G. rewrite Nl in G. exact G.
  - intros i j l m Hj Hi Hm. destruct (outputs_nth o i l Hi) as (Li & Nl). destruct (outputs_nth o j m Hm) as (Lj & Nm).
    change (i * (i + 1) / 2)%nat with (triangularNumber i).
    rewrite (nth_error_nth' _ 0) by (rewrite Lh; apply tri_lt; auto). f_equal.
    pose proof (Rv (inr (triangularNumber i + j)%nat) (tri_lt i j _ Hj Li)) as G. cbn [ndRead ndSub] in G.
    destruct (rowOf_tri i j Hj) as (R1 & R2). rewrite R1, R2, Nl, Nm in G. rewrite G. reflexivity.
Qed.

Lemma nd_aggregation :
  forall rows weights numCols,
    Forall (fun row => length (fst row) = numCols /\ length (snd row) = (numCols * (numCols + 1) / 2)%nat) rows ->
    numWeights weights = length rows ->
    forall ops excluded o sops, Forall (total_op_in_range (length rows)) ops ->
      Forall (fun i => (i < length rows)%nat) excluded -> valid_outputs numCols o -> StronglySorted le (outputsOf o) ->
      Forall (subset_op_in_range (length rows)) sops ->
      exists total0 total s0 s, newWeighted ndClass rows weights numCols = Some total0 /\
        forL ops (totalStep ndClass rows weights) total0 = Some total /\
        newSubset ndClass rows weights total excluded o = Some s0 /\
        forL sops (subsetStep ndClass rows weights o) s0 = Some s /\
        forall k, (accumulates k -> In ResetSubset sops) ->
          exists v, scoredVector ndClass o s k = Some v /\
            exact_nd rows (outputsOf o) (scoredContributions weights ops excluded sops k) v.
Proof.
  intros rows weights n HR HL ops excluded o sops Ho He Oo So Hs.
  destruct (nd_aggregation_any rows weights n HR HL ops excluded o sops Ho He Oo Hs) as (t0 & t & s0 & s & E1 & E2 & E3 & E4 & H).
  exists t0, t, s0, s. split; auto. split; auto. split; auto. split; auto. intros k Hk.
  destruct (H k Hk) as (v & Ev & Lv & G & F). exists v. split; auto. split; auto. split; auto.
  intros i j l m Hj Hi Hm. rewrite (F i j l m Hj Hi Hm). f_equal.
  destruct (outputs_nth o i l Hi) as (Li & Nl). destruct (outputs_nth o j m Hm) as (Lj & Nm).
  apply sumOf_ext. intros e. unfold ndHessian.
  assert (Hlm : (m <= l)%nat).
  { rewrite <- Nl, <- Nm. apply sorted_nth; auto. rewrite outputsOf_length. auto. }
  rewrite Nat.max_l, Nat.min_r by auto. reflexivity.
Qed.

(** ** Covered and uncovered statistics add up *)

Lemma covered_uncovered w ops excluded sops x :
  sumOf (scoredContributions w ops excluded sops Covered) x + sumOf (scoredContributions w ops excluded sops Uncovered) x =
    sumOf (coverable w ops excluded) x /\
  sumOf (scoredContributions w ops excluded sops CoveredAccumulated) x +
    sumOf (scoredContributions w ops excluded sops UncoveredAccumulated) x = sumOf (coverable w ops excluded) x.
Proof. simpl. rewrite !sumOf_app, !sumOf_negated. lra. Qed.

(** ** Predicted scores *)

Lemma predictedScore_snoc indices values i y l : length values = length indices ->
  predictedScore (PartialPrediction (indices ++ [i]) (values ++ [y])) l =
  predictedScore (PartialPrediction indices values) l + if i =? l then y else 0.
Proof.
  intros E. simpl.
  assert (A : combine (indices ++ [i]) (values ++ [y]) = combine indices values ++ [(i, y)]).
  { revert values E. induction indices as [|a indices IH]; destruct values; simpl; intros E; try discriminate; auto.
    f_equal. apply IH. lia. }
  rewrite A, filter_app, map_app. simpl.
  assert (F : forall l1 l2, fold_right Rplus 0 (l1 ++ l2) = fold_right Rplus 0 l1 + fold_right Rplus 0 l2).
  { induction l1; simpl; intros; [lra|]. rewrite IHl1. lra. }
  rewrite F. destruct (i =? l); simpl; lra.
Qed.

Lemma firstn_snoc {A} (l : list A) i d : (i < length l)%nat -> firstn (S i) l = firstn i l ++ [nth i l d].
Proof. revert i. induction l; destruct i; simpl; intros; auto; try lia. f_equal. apply IHl. lia. Qed.

(** Adding ([s] = 1) or subtracting ([s] = -1). *)
Lemma denseScore_spec f s p n row : (forall x y, f x y = x + s * y) -> length row = n -> valid_prediction n p ->
  exists row', denseScoreStep f p row = Some row' /\ length row' = n /\
    forall l, (l < n)%nat -> nth l row' 0 = nth l row 0 + s * predictedScore p l.
Proof.
  intros Hf Hl Hp. destruct p as [values|indices values]; simpl in Hp; unfold denseScoreStep.
  - match goal with |- context [forN ?m ?z ?g ?y] =>
      destruct (forN_pointwise 0 g 0 m (fun i x => f x (nth i values 0)) y) as (a & E & L & N) end; [lia| |].
    + intros i a Hi La. simpl Nat.add in *. rewrite (aget_nth a i 0), (aget_nth values i 0) by lia. apply aset_Some. lia.
    + exists a. split; auto. split; [lia|]. intros l Hn. rewrite N.
      destruct (Nat.leb_spec 0 l), (Nat.ltb_spec l (0 + length row)); simpl; try lia. rewrite Nat.sub_0_r, Hf. auto.
  - destruct Hp as (Lv & HF).
    match goal with |- context [forN ?m ?z ?g ?y] =>
      destruct (forN_inv (fun i a => length a = n /\ forall l, (l < n)%nat -> nth l a 0 =
        nth l row 0 + s * predictedScore (PartialPrediction (firstn i indices) (firstn i values)) l) g m z y) as (a & E & L & N) end.
    + split; auto. intros l _. simpl. lra.
    + intros i a Hi (La & Na). rewrite (aget_nth indices i 0%nat) by lia.
      assert (Hn : (nth i indices 0 < n)%nat) by (rewrite Forall_forall in HF; apply HF, nth_In; lia).
      rewrite (aget_nth a _ 0), (aget_nth values i 0) by lia. rewrite aset_Some by lia.
      eexists; split; [reflexivity|]. rewrite upd_length. split; auto. intros l Hl'. rewrite nth_upd_eq.
      rewrite (firstn_snoc indices i 0%nat), (firstn_snoc values i 0), predictedScore_snoc by (rewrite ?firstn_length; lia).
      destruct (Nat.eqb_spec (nth i indices 0%nat) l).
      * subst l. destruct (Nat.ltb_spec (nth i indices 0%nat) (length a)); [|lia]. simpl. rewrite Hf, Na by auto. simpl. lra.
      * simpl. rewrite Na by auto. simpl. lra.
    + exists a. split; auto. split; auto. intros l Hl'. rewrite N by auto. simpl Nat.add.
      rewrite firstn_all, <- Lv, firstn_all. auto.
Qed.

Lemma denseAdd_spec p n row : length row = n -> valid_prediction n p ->
  exists row', denseAddToRow p row = Some row' /\ length row' = n /\
    forall l, (l < n)%nat -> nth l row' 0 = nth l row 0 + predictedScore p l.
Proof.
  intros H1 H2. destruct (denseScore_spec Rplus 1 p n row) as (r & E & L & N); auto; [intros; lra|].
  exists r. split; auto. split; auto. intros l Hl. rewrite N by auto. lra.
Qed.
Lemma denseRemove_spec p n row : length row = n -> valid_prediction n p ->
  exists row', denseRemoveFromRow p row = Some row' /\ length row' = n /\
    forall l, (l < n)%nat -> nth l row' 0 = nth l row 0 - predictedScore p l.
Proof.
  intros H1 H2. destruct (denseScore_spec Rminus (-1) p n row) as (r & E & L & N); auto; [intros; lra|].
  exists r. split; auto. split; auto. intros l Hl. rewrite N by auto. lra.
Qed.

Definition scoreOf (m : fmap R) (l : nat) : R := match m l with Some x => x | None => 0 end.

Lemma sparseLoop_spec f s indices values n row m : (forall x y, f x y = x + s * y) -> ss_inv n m row ->
  length values = length indices -> Forall (fun i => (i < n)%nat) indices ->
  exists row' m', sparseScoreLoop f values indices row = Some row' /\ ss_inv n m' row' /\
    forall l, (l < n)%nat -> scoreOf m' l = scoreOf m l + s * predictedScore (PartialPrediction indices values) l.
Proof.
  intros Hf Hi Lv HF. unfold sparseScoreLoop.
  match goal with |- context [forN ?k ?z ?g ?y] =>
    destruct (forN_inv (fun i a => exists m', ss_inv n m' a /\ forall l, (l < n)%nat -> scoreOf m' l =
      scoreOf m l + s * predictedScore (PartialPrediction (firstn i indices) (firstn i values)) l) g k z y) as (a & E & m' & I' & N) end.
  - exists m. split; auto. intros l _. simpl. lra.
  - intros i a Hn (m1 & I1 & N1). rewrite (aget_nth indices i 0%nat) by lia.
    assert (Hr : (nth i indices 0 < n)%nat) by (rewrite Forall_forall in HF; apply HF, nth_In; lia).
    destruct (ss_step_inv n m1 a (SsEmplace (nth i indices 0%nat) 0) I1 Hr) as (a2 & E2 & I2). simpl in E2. rewrite E2.
    rewrite (aget_nth values i 0) by lia.
    destruct (ss_step_inv n _ a2 (SsUpdate (nth i indices 0%nat) (fun x => f x (nth i values 0))) I2 Hr) as (a3 & E3 & I3).
    simpl in E3. rewrite E3. eexists; split; [reflexivity|]. eexists; split; [exact I3|]. intros l Hl.
    rewrite (firstn_snoc indices i 0%nat), (firstn_snoc values i 0), predictedScore_snoc by (rewrite ?firstn_length; lia).
    specialize (N1 l Hl). unfold scoreOf in *. simpl fm_step. cbv beta. rewrite Nat.eqb_refl.
    destruct (Nat.eqb_spec l (nth i indices 0%nat)).
    + subst l. rewrite Nat.eqb_refl. revert N1. destruct (m1 (nth i indices 0%nat)); simpl; rewrite Hf; intros; lra.
    + destruct (Nat.eqb_spec (nth i indices 0%nat) l); [congruence|]. lra.
  - exists a, m'. split; auto. split; auto. intros l Hl. rewrite N by auto. simpl Nat.add. rewrite firstn_all, <- Lv, firstn_all. auto.
Qed.

Lemma complete_as_partial values n l : length values = n -> (l < n)%nat ->
  predictedScore (PartialPrediction (seq 0 n) values) l = nth l values 0.
Proof.
  intros <- Hl.
  assert (G : forall k v, (k <= l)%nat -> (l < k + length v)%nat ->
    fold_right Rplus 0 (map snd (filter (fun q => fst q =? l) (combine (seq k (length v)) v))) = nth (l - k) v 0).
  { intros k v. revert k. induction v as [|x v IH]; simpl; intros k H1 H2; [lia|]. destruct (Nat.eqb_spec k l).
    - subst k. rewrite Nat.sub_diag. simpl.
      assert (Z : forall j u, (l < j)%nat -> filter (fun q => fst q =? l) (combine (seq j (length u)) u) = (@nil (nat * R))).
      { intros j u. revert j. induction u; simpl; intros j Hj; auto. destruct (Nat.eqb_spec j l); [lia|]. apply IHu. lia. }
      rewrite Z by lia. simpl. lra.
    - rewrite IH by lia. replace (l - k)%nat with (S (l - S k)) by lia. auto. }
  simpl. rewrite G by lia. rewrite Nat.sub_0_r. auto.
Qed.

Lemma sparseScore_spec f s p n row m : (forall x y, f x y = x + s * y) -> ss_inv n m row -> valid_prediction n p ->
  exists row' m', sparseScoreStep f p row = Some row' /\ ss_inv n m' row' /\
    forall l, (l < n)%nat -> scoreOf m' l = scoreOf m l + s * predictedScore p l.
Proof.
  intros Hf Hi Hp. destruct p as [values|indices values]; simpl in Hp; unfold sparseScoreStep.
  - assert (Ln : length (ss_indices row) = n) by apply Hi. rewrite Ln.
    destruct (sparseLoop_spec f s (seq 0 n) values n row m Hf Hi) as (r & m' & E & I' & N).
    + rewrite seq_length. auto.
    + apply Forall_forall. intros i Hin. apply in_seq in Hin. lia.
    + exists r, m'. split; auto. split; auto. intros l Hl. rewrite N, complete_as_partial by auto. auto.
  - destruct Hp as (Lv & HF). apply sparseLoop_spec; auto.
Qed.

Lemma sparseScore_get n m row l : ss_inv n m row -> (l < n)%nat -> sparseScore row l = Some (scoreOf m l).
Proof. intros I Hl. unfold sparseScore, scoreOf. rewrite (inv_get n m row I l Hl). destruct (m l); auto. Qed.

Definition rows_hold (n : nat) (scores : nat -> nat -> R) (rows : list (list R)) : Prop :=
  Forall (fun row => length row = n) rows /\
  forall e l, (e < length rows)%nat -> (l < n)%nat -> nth l (nth e rows []) 0 = scores e l.

Lemma Forall_upd {A} (P : A -> Prop) l i v : Forall P l -> P v -> Forall P (upd l i v).
Proof. rewrite !Forall_forall. intros H Hv x Hx. destruct (upd_In _ _ _ _ Hx); subst; auto. Qed.

Lemma denseChange_spec n c scores rows : rows_hold n scores rows -> valid_change (length rows) n c ->
  exists rows', denseChange c rows = Some rows' /\ length rows' = length rows /\
    rows_hold n (fun e l => scores e l + effect e l c) rows'.
Proof.
  intros (HF & HS) (He & Hp).
  assert (X : forall s example p f, (example < length rows)%nat ->
    (forall row, length row = n -> exists row', f row = Some row' /\ length row' = n /\
       forall l, (l < n)%nat -> nth l row' 0 = nth l row 0 + s * predictedScore p l) ->
    exists rows', changeRow example f rows = Some rows' /\ length rows' = length rows /\
      rows_hold n (fun e l => scores e l + if example =? e then s * predictedScore p l else 0) rows').
  { intros s example p f Hx Hf. unfold changeRow. rewrite (aget_nth rows example []) by auto.
    destruct (Hf (nth example rows [])) as (row' & -> & L & N); [rewrite Forall_forall in HF; apply HF, nth_In; auto|].
    rewrite aset_Some by auto. eexists; split; [reflexivity|]. rewrite upd_length. split; auto. split; [apply Forall_upd; auto|].
    intros e l He' Hl. rewrite upd_length in He'. rewrite nth_upd_eq. destruct (Nat.eqb_spec example e).
    - subst e. destruct (Nat.ltb_spec example (length rows)); [|lia]. simpl. rewrite N, HS by auto. auto.
    - simpl. rewrite HS by auto. lra. }
  destruct c as [e p|e p]; simpl in *.
  - destruct (X 1 e p (denseAddToRow p) He) as (rows' & E & L & H1 & H2).
    { intros row Lr. destruct (denseAdd_spec p n row Lr Hp) as (r & E & L & N). exists r. split; auto. split; auto.
      intros l Hl. rewrite N by auto. lra. }
    exists rows'. split; auto. split; auto. split; auto. intros i l Hi Hl. rewrite H2 by auto. unfold effect. simpl.
    destruct (e =? i); lra.
  - destruct (X (-1) e p (denseRemoveFromRow p) He) as (rows' & E & L & H1 & H2).
    { intros row Lr. destruct (denseRemove_spec p n row Lr Hp) as (r & E & L & N). exists r. split; auto. split; auto.
      intros l Hl. rewrite N by auto. lra. }
    exists rows'. split; auto. split; auto. split; auto. intros i l Hi Hl. rewrite H2 by auto. unfold effect. simpl.
    destruct (e =? i); lra.
Qed.

Lemma denseChanges_spec n cs : forall scores rows, rows_hold n scores rows -> Forall (valid_change (length rows) n) cs ->
  exists rows', forL cs denseChange rows = Some rows' /\ length rows' = length rows /\
    rows_hold n (fun e l => scores e l + effects e l cs) rows'.
Proof.
  induction cs as [|c cs IH]; intros scores rows Hr HF; simpl.
  - exists rows. split; auto. split; auto. destruct Hr as (H1 & H2). split; auto. intros e l He Hl. rewrite H2 by auto.
    unfold effects. simpl. lra.
  - inversion HF; subst. destruct (denseChange_spec n c scores rows Hr H1) as (r1 & -> & L1 & R1).
    destruct (IH _ r1 R1) as (r2 & E2 & L2 & R2); [rewrite L1; auto|]. exists r2. split; auto. split; [lia|].
    destruct R2 as (A & B). split; auto. intros e l He Hl. rewrite B by auto. unfold effects. simpl. lra.
Qed.

Definition srows_hold (n : nat) (scores : nat -> nat -> R) (rows : list (sset R)) : Prop :=
  forall e, (e < length rows)%nat -> exists m, ss_inv n m (nth e rows (ss_empty R 0)) /\
    forall l, (l < n)%nat -> scoreOf m l = scores e l.

Lemma sparseChange_spec n c scores rows : srows_hold n scores rows -> valid_change (length rows) n c ->
  exists rows', sparseChange c rows = Some rows' /\ length rows' = length rows /\
    srows_hold n (fun e l => scores e l + effect e l c) rows'.
Proof.
  intros HS (He & Hp).
  assert (X : forall s example p f, (example < length rows)%nat ->
    (forall row m, ss_inv n m row -> exists row' m', f row = Some row' /\ ss_inv n m' row' /\
       forall l, (l < n)%nat -> scoreOf m' l = scoreOf m l + s * predictedScore p l) ->
    exists rows', changeRow example f rows = Some rows' /\ length rows' = length rows /\
      srows_hold n (fun e l => scores e l + if example =? e then s * predictedScore p l else 0) rows').
  { intros s example p f Hx Hf. unfold changeRow. rewrite (aget_nth rows example (ss_empty R 0)) by auto.
    destruct (HS example Hx) as (m & I & Hm). destruct (Hf _ m I) as (row' & m' & -> & I' & N).
    rewrite aset_Some by auto. eexists; split; [reflexivity|]. rewrite upd_length. split; auto.
    intros e He'. rewrite upd_length in He'. rewrite nth_upd_eq. destruct (Nat.eqb_spec example e).
    - subst e. destruct (Nat.ltb_spec example (length rows)); [|lia]. simpl. exists m'. split; auto.
      intros l Hl. rewrite N, Hm by auto. auto.
    - simpl. destruct (HS e He') as (m2 & I2 & H2). exists m2. split; auto. intros l Hl. rewrite H2 by auto. lra. }
  destruct c as [e p|e p]; simpl in *.
  - destruct (X 1 e p (sparseAddToRow p) He) as (rows' & E & L & H).
    { intros row m I. apply sparseScore_spec; auto. intros; lra. }
    exists rows'. split; auto. split; auto. intros i Hi. destruct (H i Hi) as (m & I & N). exists m. split; auto.
    intros l Hl. rewrite N by auto. unfold effect. simpl. destruct (e =? i); lra.
  - destruct (X (-1) e p (sparseRemoveFromRow p) He) as (rows' & E & L & H).
    { intros row m I. apply sparseScore_spec; auto. intros; lra. }
    exists rows'. split; auto. split; auto. intros i Hi. destruct (H i Hi) as (m & I & N). exists m. split; auto.
    intros l Hl. rewrite N by auto. unfold effect. simpl. destruct (e =? i); lra.
Qed.

Lemma sparseChanges_spec n cs : forall scores rows, srows_hold n scores rows -> Forall (valid_change (length rows) n) cs ->
  exists rows', forL cs sparseChange rows = Some rows' /\ length rows' = length rows /\
    srows_hold n (fun e l => scores e l + effects e l cs) rows'.
Proof.
  induction cs as [|c cs IH]; intros scores rows Hr HF; simpl.
  - exists rows. split; auto. split; auto. intros e He. destruct (Hr e He) as (m & I & N). exists m. split; auto.
    intros l Hl. rewrite N by auto. unfold effects. simpl. lra.
  - inversion HF; subst. destruct (sparseChange_spec n c scores rows Hr H1) as (r1 & -> & L1 & R1).
    destruct (IH _ r1 R1) as (r2 & E2 & L2 & R2); [rewrite L1; auto|]. exists r2. split; auto. split; [lia|].
    intros e He. destruct (R2 e He) as (m & I & N). exists m. split; auto. intros l Hl. rewrite N by auto.
    unfold effects. simpl. lra.
Qed.
